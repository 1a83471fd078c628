(** ProofsOrder2.v -- lines and events under two iteration orders. *)
From Verif Require Import Base Position Num TokenTypes Errors Token SavedData Variables InputHistory
  SyntaxTree Commands Calculate Editor Main SpecEval SpecHistory SpecEditor SpecCalc SpecSession SpecData SpecMain SpecOrder.
From Verif Require Import ProofsEval ProofsEval2 ProofsCalc2 ProofsCalc3 ProofsCalc4 ProofsCalc5 ProofsCalc6 ProofsCalc7 ProofsCalc8 ProofsCalc9 ProofsCalm ProofsCalm2 ProofsTouch ProofsData ProofsSession ProofsSession2 ProofsCommands ProofsEditor4 ProofsOrder.
From Coq Require Import String Permutation Lia.
Local Open Scope nat_scope.
Local Open Scope list_scope.

Definition like_r {A} (p1 p2 : env * outcome failure A) : Prop := like (fst p1) (fst p2) /\ snd p1 = snd p2.
Lemma like_pure {A} s1 s2 (r : outcome failure A) : like s1 s2 -> like_r (s1, r) (s2, r).
Proof. intros H. split; [exact H|reflexivity]. Qed.
Lemma then_like {A B} (p1 p2 : env * outcome failure A) (f : A -> env -> env * outcome failure B) : like_r p1 p2 ->
  (forall a s1 s2, like s1 s2 -> like_r (f a s1) (f a s2)) -> like_r (then_do p1 f) (then_do p2 f).
Proof.
  destruct p1 as [s1 r], p2 as [s2 r2]. intros (L & E) H. cbn [fst snd] in *. subst r2. destruct r; cbn [then_do]; [apply H, L|apply like_pure, L..].
Qed.
Lemma touch_all_like n1 n2 id s1 s2 : like s1 s2 -> accepts id (e_db s1) -> Permutation n1 n2 -> like_r (touch_all n1 id s1) (touch_all n2 id s2).
Proof.
  intros TT A P. pose proof TT as (V & T). unfold touch_all. destruct (e_vars s1) as [m1|], (e_vars s2) as [m2|]; try contradiction; [|apply like_pure, TT].
  pose proof (touch_like n1 n2 id m1 m2 _ _ V T A P) as L. destruct (touch_loop n1 id m1 (e_db s1)) as [[m1' o1] r1], (touch_loop n2 id m2 (e_db s2)) as [[m2' o2] r2].
  destruct L as (A1 & A2 & A3). cbn [fst snd] in *. subst r2. split; [split; [exact A1|exact A2]|reflexivity].
Qed.
Lemma variable_like x p s1 s2 : like s1 s2 -> like_r (exec_variable x p s1) (exec_variable x p s2).
Proof.
  intros TT. pose proof TT as (V & T). unfold exec_variable. destruct (e_vars s1) as [m1|], (e_vars s2) as [m2|]; try contradiction; [|apply like_pure, TT].
  pose proof (lookup_like m1 m2 x _ _ V T) as L. destruct (vs_lookup m1 x (e_db s1)) as [[m1' o1] r1], (vs_lookup m2 x (e_db s2)) as [[m2' o2] r2].
  destruct L as (A1 & A2 & A3). cbn [fst snd] in *. subst r2. split; [split; [exact A1|exact A2]|reflexivity].
Qed.
Fixpoint exec_like pr a n {struct n} : forall s1 s2, like s1 s2 -> like_r (exec pr a n s1) (exec pr a n s2).
Proof.
  destruct n as [v p|x p|op p n|op p l r|f p ns w|p q n]; intros s sF T.
  - apply like_pure, T.
  - apply variable_like, T.
  - cbn [exec]. apply then_like; [apply exec_like, T|]. intros. apply like_pure. assumption.
  - cbn [exec]. apply then_like; [apply exec_like, T|]. intros v s1 sF1 T1. apply then_like; [apply exec_like, T1|]. intros. apply like_pure. assumption.
  - cbn [exec]. apply then_like; [|intros; apply like_pure; assumption]. revert s sF T. induction ns as [|m ns IH]; intros s sF T; [apply like_pure, T|].
    apply then_like; [apply exec_like, T|]. intros v s1 sF1 T1. apply then_like; [apply IH, T1|]. intros. apply like_pure. assumption.
  - cbn [exec]. apply exec_like, T.
Qed.
Lemma tree_like pr a t id s1 s2 : like s1 s2 -> like_r (tree_execute pr a t id s1) (tree_execute pr a t id s2).
Proof.
  intros T. unfold tree_execute. apply then_like; [apply exec_like, T|]. clear s1 s2 T. intros v s1 s2 TT. pose proof TT as (V & T1). destruct (st_var t) as [y|]; [|apply like_pure, TT].
  destruct (e_vars s1) as [m1|], (e_vars s2) as [m2|]; try contradiction; [|apply like_pure, TT].
  pose proof (update_like m1 m2 (pd_value y) v id _ _ V T1) as L. destruct (vs_update m1 (pd_value y) v id (e_db s1)) as [[m1' o1] r1], (vs_update m2 (pd_value y) v id (e_db s2)) as [[m2' o2] r2].
  destruct L as (A1 & A2 & A3). cbn [fst snd] in *. subst r2. split; [split; [exact A1|exact A2]|reflexivity].
Qed.

(** Replies: the same, or the same rows. *)
Definition rows_alike (r1 r2 : outcome failure str) : Prop :=
  exists rows1 rows2, Permutation rows1 rows2 /\ r1 = Ok (join_rows rows1) /\ r2 = Ok (join_rows rows2).
Lemma one_name (l1 l2 : list str) : Permutation l1 l2 -> (forall y1 y2, List.In y1 l1 -> List.In y2 l1 -> y1 = y2) -> l1 = l2.
Proof.
  intros P H. assert (K : forall y1 y2, List.In y1 l1 -> List.In y2 l2 -> y1 = y2) by (intros y1 y2 A B; apply H; [exact A|eapply Permutation_in; [apply Permutation_sym, P|exact B]]).
  pose proof (Permutation_length P) as L. clear P H. revert l2 L K. induction l1 as [|x l1 IH]; intros [|y l2] L K; try discriminate L; [reflexivity|].
  f_equal; [apply K; left; reflexivity|]. apply IH; [injection L; auto|]. intros; apply K; right; assumption.
Qed.
Lemma names_decide (l : list str) : (forall y1 y2, List.In y1 l -> List.In y2 l -> y1 = y2) \/ exists y1 y2, List.In y1 l /\ List.In y2 l /\ y1 <> y2.
Proof.
  destruct l as [|x l]; [left; intros y1 y2 []|]. destruct (Forall_Exists_dec (fun y => y = x) (fun y => list_eq_dec N.eq_dec y x) l) as [F|F].
  - left. rewrite Forall_forall in F. assert (K : forall y, List.In y (x :: l) -> y = x) by (intros y [->|H]; auto). intros y1 y2 H1 H2. rewrite (K _ H1), (K _ H2). reflexivity.
  - right. apply Exists_exists in F as (y & H & N). exists y, x. split; [right; exact H|]. split; [left; reflexivity|exact N].
Qed.

Definition like_cmd (several : Prop) (p1 p2 : args * env * outcome failure (str * list str)) : Prop :=
  fst (fst p1) = fst (fst p2) /\ like (snd (fst p1)) (snd (fst p2)) /\
  (snd p1 = snd p2 \/
   exists rows1 rows2 t1 t2, Permutation rows1 rows2 /\ Permutation t1 t2 /\ snd p1 = Ok (join_rows rows1, t1) /\ snd p2 = Ok (join_rows rows2, t2) /\ (several \/ rows1 = rows2)).
Lemma cmd_like_pure several a s1 s2 r : like s1 s2 -> like_cmd several (a, s1, r) (a, s2, r).
Proof. intros L. split; [reflexivity|]. split; [exact L|]. left. reflexivity. Qed.
Lemma command_like pr ord1 ord2 x c arg a s1 s2 : like s1 s2 -> env_ok s1 -> iterates ord1 -> iterates ord2 ->
  like_cmd (c = CReloadVar /\ exists l y1 y2, tokenize_variable_list (pd_value arg) = Ok l /\ List.In y1 (map pd_value l) /\ List.In y2 (map pd_value l) /\ y1 <> y2)
    (run_command pr ord1 x c arg a s1) (run_command pr ord2 x c arg a s2).
Proof.
  intros TT Hok O1 O2. pose proof TT as (V & T).
  assert (PP : forall l, Permutation (ord1 l) (ord2 l)) by (intros l; eapply Permutation_trans; [apply O1|apply Permutation_sym, O2]).
  assert (Mem : forall z, short_help z s1 = short_help z s2 /\ long_help z s1 = long_help z s2).
  { intros z. assert (Nn : is_none (e_db s1) = is_none (e_db s2) /\ is_none (e_vars s1) = is_none (e_vars s2)) by (destruct (e_db s1), (e_db s2); cbn in T; try contradiction; destruct (e_vars s1), (e_vars s2); cbn in V; try contradiction; auto).
    destruct z; cbn [short_help long_help]; auto; split; try reflexivity; destruct Nn as (N1 & N2); rewrite ?N1, ?N2; reflexivity. }
  destruct c; cbn [run_command].
  - unfold exec_help. destruct (ptrim arg) as [n|e|p]; [|apply cmd_like_pure, TT..]. destruct (pd_value n) as [|c0 w] eqn:En.
    + cbv zeta. unfold cmd_done. match goal with |- like_cmd _ (_, _, Ok (?t1, _)) (_, _, Ok (?t2, _)) => assert (Z : t1 = t2) end.
      { f_equal. f_equal. apply map_ext. intros y. destruct (assoc y (x_commands x)) as [z|]; [|reflexivity]. rewrite (proj1 (Mem z)). reflexivity. }
      rewrite Z. apply cmd_like_pure, TT.
    + destruct (assoc _ _) as [z|]; [|apply cmd_like_pure, TT]. unfold cmd_done. rewrite (proj2 (Mem z)). apply cmd_like_pure, TT.
  - unfold exec_reloadvar. destruct (tokenize_variable_list _) as [l|e|p] eqn:Tl; [|apply cmd_like_pure, TT..].
    destruct (e_db s1) as [sd1|] eqn:D1, (e_db s2) as [sd2|] eqn:D2; try contradiction; [|apply cmd_like_pure, TT].
    destruct (e_vars s1) as [m1|], (e_vars s2) as [m2|]; try contradiction; [|apply cmd_like_pure, TT].
    pose proof T as (C1 & C2 & D & Q). pose proof (proj2 Hok _ D1) as R1.
    destruct (reload_loop (ord1 (name_set l)) [] [] m1 sd1) as [[m1' t1] r1] eqn:E1, (reload_loop (ord2 (name_set l)) [] [] m2 sd2) as [[m2' t2] r2] eqn:E2.
    destruct (reload_loop_to _ _ _ _ _ _ _ _ C1 R1 E1) as (A1 & -> & B1 & B2 & B3). assert (R2 : rows_ok (sd_db sd2)) by (rewrite <- D; exact R1).
    destruct (reload_loop_to _ _ _ _ _ _ _ _ C2 R2 E2) as (A2 & -> & G1 & G2 & G3). rewrite <- D in A2, G2 |- *.
    split; [reflexivity|]. cbn [fst snd]. split.
    + split; [intros y; rewrite A1, A2, (V y), (existsb_perm _ _ _ (PP _)); unfold fetched; rewrite (V y); reflexivity|].
      split; [exact B1|]. split; [exact G1|]. split; congruence.
    + right. exists (map (row_of (sd_db sd1)) (ord1 (name_set l))), (map (row_of (sd_db sd1)) (ord2 (name_set l))). do 2 eexists.
      split; [apply Permutation_map, PP|]. split; [apply PP|]. split; [reflexivity|]. split; [reflexivity|].
      destruct (names_decide (map pd_value l)) as [U|(y1 & y2 & H1 & H2 & N)].
      * right. f_equal. apply one_name; [apply PP|]. intros y1 y2 H1 H2. apply U; (eapply in_names; [exact O1|]); assumption.
      * left. split; [reflexivity|]. exists l, y1, y2. auto.
  - unfold exec_purgevar. destruct (tokenize_variable_list _) as [l|e|p]; [|apply cmd_like_pure, TT..].
    destruct (e_vars s1) as [m1|], (e_vars s2) as [m2|]; try contradiction; [|apply cmd_like_pure, TT].
    pose proof (purge_like (ord1 (name_set l)) (ord2 (name_set l)) m1 m2 _ _ V T (PP _)) as L.
    destruct (purge_loop _ m1 (e_db s1)) as [[m1' t1] r1], (purge_loop _ m2 (e_db s2)) as [[m2' t2] r2]. destruct L as (A1 & A2 & A3). cbn [fst snd] in *. subst r2.
    split; [reflexivity|]. split; [split; [exact A1|exact A2]|]. left. reflexivity.
  - unfold exec_histcap. destruct (tokenize_int_list _ _ _) as [[|i [|j l]]|e|p]; try apply cmd_like_pure, TT.
    + destruct (e_db s1) as [sd1|] eqn:D1, (e_db s2) as [sd2|] eqn:D2; try contradiction; [|apply cmd_like_pure, TT].
      unfold get_max_history_size. destruct (sd_call _ sd1) as [t1 o1] eqn:E1. destruct (sd_call _ sd2) as [t2 o2] eqn:E2.
      destruct (call_pair _ _ _ _ _ _ _ T E1 E2) as (T' & ->). split; [reflexivity|]. split; [split; [exact V|exact T']|]. left. reflexivity.
    + destruct (validate_max_history_size _); [apply cmd_like_pure, TT|].
      destruct (e_db s1) as [sd1|] eqn:D1, (e_db s2) as [sd2|] eqn:D2; try contradiction; [|apply cmd_like_pure, TT].
      unfold set_max_history_size. destruct (sd_call _ sd1) as [t1 o1] eqn:E1. destruct (sd_call _ sd2) as [t2 o2] eqn:E2.
      destruct (call_pair _ _ _ _ _ _ _ T E1 E2) as (T' & ->). split; [reflexivity|]. split; [split; [exact V|exact T']|]. left. reflexivity.
  - unfold exec_bool_setting, cmd_done. cbv zeta. destruct (trim _); [apply cmd_like_pure, TT|]. destruct (_ || _); [apply cmd_like_pure, TT|]. destruct (_ || _); apply cmd_like_pure, TT.
  - unfold exec_radix, cmd_done. destruct (parse_radix_arg _ _) as [[v|]|e|p]; apply cmd_like_pure, TT.
  - unfold exec_converttoradix, cmd_done. destruct (str_eqb _ _); [apply cmd_like_pure, TT|]. destruct (parse_radix_arg _ _) as [[v|]|e|p]; apply cmd_like_pure, TT.
  - unfold exec_bool_setting, cmd_done. cbv zeta. destruct (trim _); [apply cmd_like_pure, TT|]. destruct (_ || _); [apply cmd_like_pure, TT|]. destruct (_ || _); apply cmd_like_pure, TT.
  - unfold exec_bool_setting, cmd_done. cbv zeta. destruct (trim _); [apply cmd_like_pure, TT|]. destruct (_ || _); [apply cmd_like_pure, TT|]. destruct (_ || _); apply cmd_like_pure, TT.
  - unfold exec_precision, cmd_done. cbv zeta. destruct (tokenize_int_list _ _ _) as [[|i [|j [|k l]]]|e|p]; try apply cmd_like_pure, TT; destruct (check_precision _ _ _) as [[v w]|e|p]; apply cmd_like_pure, TT.
Qed.

Definition like_line (several : Prop) (r1 r2 : outcome failure str) : Prop := r1 = r2 \/ (several /\ rows_alike r1 r2).
Lemma body_like pr ord1 ord2 input id a s1 s2 : like s1 s2 -> env_ok s1 -> accepts id (e_db s1) -> real (e_db s1) -> iterates ord1 -> iterates ord2 ->
  let p1 := calculate_body pr ord1 the_executor input id a s1 in let p2 := calculate_body pr ord2 the_executor input id a s2 in
  fst (fst p1) = fst (fst p2) /\ like (snd (fst p1)) (snd (fst p2)) /\ like_line (reloads_several input) (snd p1) (snd p2).
Proof.
  intros TT Hok A Re O1 O2. cbv zeta. unfold calculate_body. destruct (tokenize input (a_radix a)) as [[ts|name arg]|e|p] eqn:Tk.
  3,4: cbn; repeat split; try apply TT; left; reflexivity.
  - assert (PP : Permutation (ord1 (token_variables ts)) (ord2 (token_variables ts))) by (eapply Permutation_trans; [apply O1|apply Permutation_sym, O2]).
    pose proof (touch_all_like _ _ id _ _ TT A PP) as L. destruct (touch_all _ id s1) as [u1 r1], (touch_all _ id s2) as [u2 r2].
    destruct L as (L & E). cbn [fst snd] in *. subst r2. destruct r1 as [[]|e|p]; [|cbn; repeat split; try apply L; left; reflexivity..].
    destruct ts as [|t ts]; [cbn; repeat split; try apply L; left; reflexivity|].
    destruct (syntax_tree_new _) as [tr|e|p]; [|cbn; repeat split; try apply L; left; reflexivity..].
    pose proof (tree_like pr a tr id _ _ L) as (L2 & E2). destruct (tree_execute pr a tr id u1) as [v1 q1], (tree_execute pr a tr id u2) as [v2 q2].
    cbn [fst snd] in *. subst q2. split; [reflexivity|]. split; [exact L2|]. left. reflexivity.
  - unfold execute_command. fold (resolve_in (pd_value name)). destruct (resolve_in (pd_value name)) as [c|] eqn:R; [|cbn; repeat split; try apply TT; left; reflexivity].
    pose proof (command_like pr ord1 ord2 the_executor c arg a _ _ TT Hok O1 O2) as (Ea & L & K).
    destruct (run_command pr ord1 the_executor c arg a s1) as [[a1 u1] r1] eqn:RC, (run_command pr ord2 the_executor c arg a s2) as [[a2 u2] r2].
    destruct (command_calm _ _ _ _ _ _ _ _ _ _ _ Hok A Re RC) as (_ & _ & Hacc). cbn [fst snd] in *. subst a2.
    assert (Tch : forall m t1 t2, r1 = Ok (m, t1) -> Permutation t1 t2 -> like_r (touch_all t1 id u1) (touch_all t2 id u2)).
    { intros m t1 t2 Er P. destruct (Hacc _ _ Er) as [->|Ac]; [|apply touch_all_like; assumption]. apply Permutation_nil in P. subst t2. rewrite !touch_none. split; [exact L|reflexivity]. }
    destruct K as [K|(rows1 & rows2 & t1 & t2 & P1 & P2 & E1 & E2 & Sv)].
    + subst r2. destruct r1 as [[m t]|e|p]; [|cbn; repeat split; try apply L; left; reflexivity..].
      pose proof (Tch _ _ _ eq_refl (Permutation_refl t)) as (L2 & Q2). destruct (touch_all t id u1) as [v1 q1], (touch_all t id u2) as [v2 q2].
      cbn [fst snd] in *. subst q2. split; [reflexivity|]. split; [exact L2|]. left. reflexivity.
    + subst r2. pose proof (Tch _ _ _ E1 P2) as (L2 & Q2). subst r1. destruct (touch_all t1 id u1) as [v1 q1], (touch_all t2 id u2) as [v2 q2].
      cbn [fst snd] in *. subst q2. split; [reflexivity|]. split; [exact L2|]. destruct q1 as [[]|e|p]; [|left; reflexivity..].
      destruct Sv as [(-> & l & y1 & y2 & T & H1 & H2 & N)| ->]; [|left; reflexivity]. right. split.
      * exists (a_radix a), (pd_value arg), (map pd_value l), y1, y2. split.
        { exists name, arg. split; [exact Tk|]. split; [|reflexivity]. apply resolve_only in R. destruct R as [R|[]]. rewrite <- R. reflexivity. }
        split; [apply variable_list_iff; exists l; auto|]. auto.
      * exists rows1, rows2. auto.
Qed.
Lemma calculate_like pr ord1 ord2 input a h s1 s2 : like s1 s2 -> valid_settings a -> env_ok s1 -> real_database s1 -> no_faults s1 -> iterates ord1 -> iterates ord2 ->
  let p1 := calculate pr ord1 the_executor input (mkSession a (Some h) s1) in let p2 := calculate pr ord2 the_executor input (mkSession a (Some h) s2) in
  s_args (fst p1) = s_args (fst p2) /\ s_inputs (fst p1) = s_inputs (fst p2) /\ like (s_env (fst p1)) (s_env (fst p2)) /\
  like_line (reloads_several input) (snd p1) (snd p2).
Proof.
  intros TT Ha Hok Re Nf O1 O2. cbv zeta. pose proof TT as (V & T). pose proof (finished_pair h _ _ T) as (F1 & F2 & F3).
  pose proof (recording_ok (mkSession a (Some h) s1) Hok) as (Rok & _). pose proof (recording_real (mkSession a (Some h) s1) Re) as Rre.
  unfold after_recording in Rok, Rre. cbn [s_inputs s_env] in Rok, Rre. unfold calculate. cbn [s_inputs s_env s_args].
  assert (Ac : forall id, snd (input_finished h (e_db s1)) = Ok id -> accepts id (snd (fst (input_finished h (e_db s1))))).
  { intros id E. unfold input_finished in E |- *. destruct (current_line h) as [l|e|p]; try discriminate E. destruct (e_db s1) as [sd|] eqn:D.
    - destruct (add_to_input_history l sd) as [sd' o] eqn:Ad. destruct (add_calm _ _ _ _ (Nf _ D) (Re _ D) Ad) as (i & -> & Ac). cbn [fst snd] in *. injection E as <-. exact Ac.
    - cbn [fst snd] in *. injection E as <-. exact I. }
  destruct (input_finished h (e_db s1)) as [[h1 o1] r1], (input_finished h (e_db s2)) as [[h2 o2] r2]. cbn [fst snd] in *. subst h2 r2.
  assert (L : like (mkEnv (e_vars s1) o1) (mkEnv (e_vars s2) o2)) by (split; [exact V|exact F2]).
  destruct r1 as [id|e|p]; [|cbn; repeat split; try apply L; left; reflexivity..].
  pose proof (body_like pr ord1 ord2 input id a _ _ L Rok (Ac _ eq_refl) Rre O1 O2) as (B1 & B2 & B3).
  destruct (calculate_body _ ord1 _ _ _ _ _) as [[a1 u1] q1], (calculate_body _ ord2 _ _ _ _ _) as [[a2 u2] q2]. cbn [fst snd] in *. subst a2. auto.
Qed.
