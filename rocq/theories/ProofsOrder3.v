(** ProofsOrder3.v -- whole sessions and runs under two iteration orders. *)
From Verif Require Import Base Position Num TokenTypes Errors Token SavedData Variables InputHistory
  SyntaxTree Commands Calculate Editor Main SpecEval SpecHistory SpecEditor SpecCalc SpecSession SpecData SpecMain SpecOrder.
From Verif Require Import ProofsEval ProofsCalc4 ProofsCalc6 ProofsCalc8 ProofsCalm ProofsCalm2 ProofsSession ProofsEditor4 ProofsMain ProofsRestart2 ProofsOrder ProofsOrder2.
From Coq Require Import String Permutation Lia.
Local Open Scope nat_scope.
Local Open Scope list_scope.

(** Rows printed in another order are the same commands in another order. *)
Lemma split_app s s' : forall cur, split_lines (s ++ c_newline :: s') cur = split_lines s cur ++ split_lines s' [].
Proof.
  induction s as [|c s IH]; intros cur; cbn [app split_lines]; [rewrite N.eqb_refl; reflexivity|].
  destruct (N.eqb c c_newline); rewrite IH; reflexivity.
Qed.
Lemma split_join rows : rows <> [] -> split_lines (join_rows rows) [] = flat_map (fun r => split_lines r []) rows.
Proof.
  induction rows as [|r rows IH]; intros N; [destruct (N eq_refl)|]. destruct rows as [|r2 rows]; [cbn; rewrite app_nil_r; reflexivity|].
  change (join_rows (r :: r2 :: rows)) with (r ++ c_newline :: join_rows (r2 :: rows)). rewrite split_app, IH by discriminate. reflexivity.
Qed.
Lemma flat_map_perm {A B} (f : A -> list B) l1 l2 : Permutation l1 l2 -> Permutation (flat_map f l1) (flat_map f l2).
Proof.
  induction 1; cbn; [constructor|apply Permutation_app_head; assumption| |eapply Permutation_trans; eassumption].
  rewrite !app_assoc. apply Permutation_app_tail, Permutation_app_comm.
Qed.
Lemma printed_perm alt rows1 rows2 : Permutation rows1 rows2 -> Permutation (print_output alt (join_rows rows1)) (print_output alt (join_rows rows2)).
Proof.
  intros P. destruct rows1 as [|r rows1]; [apply Permutation_nil in P; subst rows2; apply Permutation_refl|].
  destruct rows2 as [|r2 rows2]; [apply Permutation_sym, Permutation_nil in P; discriminate P|].
  unfold print_output. rewrite !split_join by discriminate. apply flat_map_perm, flat_map_perm, P.
Qed.

Definition like_ui (u1 u2 : ui) : Prop :=
  u_args u1 = u_args u2 /\ eqv (u_vars u1) (u_vars u2) /\ pair2 (u_db u1) (u_db u2) /\ u_inputs u1 = u_inputs u2 /\ u_line u1 = u_line u2 /\ u_count u1 = u_count u2.
(** the same apart from the order of rows, and that only if some submitted line reloads several variables *)
Definition like_out (u1 : ui) (p1 p2 : ui * list tcmd * status) : Prop :=
  like_ui (fst (fst p1)) (fst (fst p2)) /\ snd p1 = snd p2 /\ Permutation (snd (fst p1)) (snd (fst p2)) /\
  (exists more, submitted (fst (fst p1)) = submitted u1 ++ more) /\
  (snd (fst p1) = snd (fst p2) \/ exists line, List.In line (submitted (fst (fst p1))) /\ reloads_several line).
Lemma out_pure u u1 u2 out st : like_ui u1 u2 -> (exists more, submitted u1 = submitted u ++ more) -> like_out u (u1, out, st) (u2, out, st).
Proof. intros L M. split; [exact L|]. split; [reflexivity|]. split; [apply Permutation_refl|]. split; [exact M|]. left. reflexivity. Qed.

Lemma start_like pr tm u u1 u2 : like_ui u1 u2 -> (exists more, submitted u1 = submitted u ++ more) ->
  exists v1 v2 out st, start_line pr tm u1 = (v1, out, st) /\ start_line pr tm u2 = (v2, out, st) /\ like_ui v1 v2 /\ submitted v1 = submitted u1.
Proof.
  intros (A & V & T & I & L & C) _. unfold start_line. cbv zeta. rewrite A, I, ?L, C.
  destruct (display _ _ _ _ _) as [[l o]|e|p]; do 4 eexists; (split; [reflexivity|]); (split; [reflexivity|]); (split; [repeat split; auto; cbn; auto|]); cbn; unfold submitted; cbn; congruence.
Qed.
Lemma finished_internal h odb h' odb' r t : @current_line runtime_error h = Ok t -> input_finished h odb = (h', odb', r) -> exists more, ih_internal h' = ih_internal h ++ more /\ (List.In t (ih_internal h')).
Proof.
  intros L F. unfold input_finished in F. rewrite L in F.
  destruct odb as [sd|]; [destruct (add_to_input_history t sd) as [sd' [i|e|p]]|]; apply pair_equal_spec in F as [F _]; apply pair_equal_spec in F as [<- _];
  (exists [t]; split; [reflexivity|]; cbn; apply in_or_app; right; left; reflexivity).
Qed.
Lemma calculate_internal pr ord x input a h s t : @current_line runtime_error h = Ok t -> exists h', s_inputs (fst (calculate pr ord x input (mkSession a (Some h) s))) = Some h' /\
  (exists more, ih_internal h' = ih_internal h ++ more) /\ List.In t (ih_internal h').
Proof.
  intros L. unfold calculate. cbn [s_inputs s_env s_args]. destruct (input_finished h (e_db s)) as [[h1 o1] r] eqn:F.
  destruct (finished_internal _ _ _ _ _ _ L F) as (more & M & Hin). exists h1.
  destruct r as [id|e|p]; [destruct (calculate_body _ _ _ _ _ _ _) as [[a1 s1] r1]| |]; cbn; eauto.
Qed.
Lemma finish_like pr ord1 ord2 tm u1 u2 : (forall n, iterates (ord1 n)) -> (forall n, iterates (ord2 n)) -> like_ui u1 u2 -> ui_steady u1 ->
  like_out u1 (finish_line pr ord1 the_executor tm u1) (finish_line pr ord2 the_executor tm u2).
Proof.
  intros O1 O2 LU ((A & B & R) & (Cm & _)). pose proof LU as (Ea & V & T & Ei & El & Ec). unfold finish_line. cbv zeta. rewrite <- Ea, <- Ei, <- El, <- Ec.
  assert (M0 : exists more, submitted u1 = submitted u1 ++ more) by (exists []; rewrite app_nil_r; reflexivity).
  destruct (display _ _ _ _ _) as [[l o]|e|p]; [|apply out_pure; assumption..].
  destruct (@current_line runtime_error (u_inputs u1)) as [input|e|p] eqn:Cl; [|apply out_pure; assumption..].
  pose proof (calculate_like pr (ord1 (u_count u1)) (ord2 (u_count u1)) input (u_args u1) (u_inputs u1) (mkEnv (Some (u_vars u1)) (u_db u1)) (mkEnv (Some (u_vars u2)) (u_db u2))
    (conj V T) A B R Cm (O1 _) (O2 _)) as (K1 & K2 & K3 & K4).
  destruct (calculate_internal pr (ord1 (u_count u1)) the_executor input (u_args u1) (u_inputs u1) (mkEnv (Some (u_vars u1)) (u_db u1)) input Cl) as (h' & Eh & Mh & Hin).
  destruct (calculate pr (ord1 (u_count u1)) the_executor input _) as [se1 r1], (calculate pr (ord2 (u_count u1)) the_executor input _) as [se2 r2]. cbn [fst snd] in *.
  rewrite <- K1, <- K2. rewrite Eh.
  match goal with |- like_out _ (match render r1 with Ok _ => let '(_, _) := start_line _ _ ?a in _ | _ => _ end) (match render r2 with Ok _ => let '(_, _) := start_line _ _ ?b in _ | _ => _ end) => set (w1 := a); set (w2 := b) end.
  assert (LW : like_ui w1 w2).
  { destruct K3 as (K3 & K5). unfold w1, w2. split; [reflexivity|]. split; [|split; [exact K5|auto]]. cbn [u_vars].
    destruct (e_vars (s_env se1)), (e_vars (s_env se2)); try contradiction; [exact K3|exact V]. }
  assert (MW : exists more, submitted w1 = submitted u1 ++ more) by exact Mh.
  assert (HW : List.In input (submitted w1)) by exact Hin.
  destruct (start_like pr tm u1 w1 w2 LW MW) as (v1 & v2 & out & st & S1 & S2 & LV & Sv). rewrite S1, S2.
  destruct K4 as [<-|(Sev & rows1 & rows2 & P & -> & ->)].
  - destruct (render r1) as [text|e|p]; apply out_pure; try assumption. rewrite Sv. exact MW.
  - cbn [render]. split; [exact LV|]. split; [reflexivity|]. cbn [fst snd]. split.
    + apply Permutation_app_head, Permutation_app_tail, printed_perm, P.
    + split; [rewrite Sv; exact MW|]. right. exists input. split; [rewrite Sv; exact HW|exact Sev].
Qed.
Lemma or_stop_pair {A} (r : outcome runtime_error A) l h db1 db2 k1 k2 : pair2 db1 db2 ->
  (forall a, exists l' h' d1 d2 act, k1 a = (l', h', d1, act) /\ k2 a = (l', h', d2, act) /\ pair2 d1 d2) ->
  exists l' h' d1 d2 act, or_stop r l h db1 k1 = (l', h', d1, act) /\ or_stop r l h db2 k2 = (l', h', d2, act) /\ pair2 d1 d2.
Proof. intros T K. destruct r as [a|e|p]; cbn [or_stop]; [apply K|do 5 eexists; auto..]. Qed.
Lemma event_pair ev l h db1 db2 : pair2 db1 db2 ->
  exists l' h' d1 d2 act, handle_event ev l h db1 = (l', h', d1, act) /\ handle_event ev l h db2 = (l', h', d2, act) /\ pair2 d1 d2.
Proof.
  intros T. assert (Keep : forall (l' : line_state) (h' : input_history) (act : action), exists l1 h1 d1 d2 act1, (l', h', db1, act) = (l1, h1, d1, act1) /\ (l', h', db2, act) = (l1, h1, d2, act1) /\ pair2 d1 d2) by (intros; do 5 eexists; auto).
  assert (Or : forall A (r : outcome runtime_error A) l h k1 k2, (forall a, exists l' h' d1 d2 act, k1 a = (l', h', d1, act) /\ k2 a = (l', h', d2, act) /\ pair2 d1 d2) ->
     exists l' h' d1 d2 act, or_stop r l h db1 k1 = (l', h', d1, act) /\ or_stop r l h db2 k2 = (l', h', d2, act) /\ pair2 d1 d2) by (intros; apply or_stop_pair; auto).
  destruct ev as [code mods| |width|]; try apply Keep. cbn [handle_event]. destruct code as [c| | | | | | | | | |]; try apply Keep.
  - unfold handle_char. destruct (negb (is_ascii c)); [apply Keep|].
    destruct (N.eqb mods CONTROL && (N.eqb c 100 || N.eqb c 122 || N.eqb c 99)); [apply Keep|].
    destruct (N.eqb mods CONTROL && (N.eqb c 109 || N.eqb c 110)).
    { apply Or. intros t. apply Or. intros [q|]; apply Keep. }
    destruct (N.eqb mods SHIFT); [apply Or; intros; apply Keep|]. destruct (negb (N.eqb mods 0)); [apply Keep|apply Or; intros; apply Keep].
  - destruct (Nat.eqb (l_cursor l) 0); [apply Keep|]. apply Or. intros; apply Keep.
  - apply Or. intros t. destruct (Nat.leb _ _); [apply Keep|]. apply Or. intros; apply Keep.
  - pose proof (earlier_pair h _ _ T) as (E1 & E2 & E3). destruct (try_earlier h db1) as [[h1 o1] r1], (try_earlier h db2) as [[h2 o2] r2]. cbn [fst snd] in *. subst h2 r2.
    destruct r1 as [[|]|e|p]; [|do 5 eexists; auto..]. apply or_stop_pair; [exact E2|]. intros t. do 5 eexists; auto.
  - destruct (try_later h) as [h' [|]]; [|apply Keep]. apply Or. intros; apply Keep.
  - destruct (move_distance mods); apply Keep.
  - destruct (move_distance mods); [|apply Keep]. apply Or. intros; apply Keep.
  - apply Or. intros; apply Keep.
Qed.
Lemma step_like pr ord1 ord2 tm ev u1 u2 : (forall n, iterates (ord1 n)) -> (forall n, iterates (ord2 n)) -> like_ui u1 u2 -> ui_steady u1 ->
  like_out u1 (ui_step pr ord1 the_executor tm ev u1) (ui_step pr ord2 the_executor tm ev u2).
Proof.
  intros O1 O2 LU US. pose proof LU as (Ea & V & T & Ei & El & Ec). pose proof US as (G & S). unfold ui_step. rewrite <- Ea, <- Ei, <- El, <- Ec.
  pose proof (handle_event_internal ev (u_line u1) (u_inputs u1) (u_db u1)) as Int.
  pose proof (handle_event_file ev (u_line u1) (u_inputs u1) (u_db u1)) as F.
  pose proof (handle_event_steady ev (u_line u1) (u_inputs u1) (u_db u1) S) as K.
  destruct (event_pair ev (u_line u1) (u_inputs u1) _ _ T) as (l' & h' & d1 & d2 & act & H1 & H2 & T').
  rewrite H1 in Int, F, K |- *. rewrite H2. destruct K as (S' & _).
  assert (L : forall l0, like_ui (mkUi (u_args u1) (u_vars u1) d1 h' l0 (u_count u1)) (mkUi (u_args u1) (u_vars u2) d2 h' l0 (u_count u1))) by (repeat split; auto).
  assert (M : forall l0, exists more, submitted (mkUi (u_args u1) (u_vars u1) d1 h' l0 (u_count u1)) = submitted u1 ++ more).
  { intros l0. exists []. rewrite app_nil_r. unfold submitted. cbn. exact Int. }
  destruct act; try (apply out_pure; [apply L|apply M]).
  - destruct (display _ _ _ _ _) as [[l'' out]|e|p]; apply out_pure; try apply L; apply M.
  - assert (U' : ui_steady (mkUi (u_args u1) (u_vars u1) d1 h' l' (u_count u1))) by (split; [destruct u1; eapply good_file; [exact F|exact G]|exact S']).
    pose proof (finish_like pr ord1 ord2 tm _ _ O1 O2 (L l') U') as (B1 & B2 & B3 & (more & B4) & B5).
    split; [exact B1|]. split; [exact B2|]. split; [exact B3|]. split; [|exact B5]. exists more. rewrite B4. unfold submitted at 1. cbn [u_inputs]. rewrite Int. reflexivity.
Qed.
Lemma run_like pr ord1 ord2 tm evs : (forall n, iterates (ord1 n)) -> (forall n, iterates (ord2 n)) -> forall u1 u2, like_ui u1 u2 -> ui_steady u1 ->
  like_out u1 (run_events pr ord1 the_executor tm evs u1) (run_events pr ord2 the_executor tm evs u2).
Proof.
  intros O1 O2. induction evs as [|ev evs IH]; intros u1 u2 L U; cbn [run_events].
  - apply out_pure; [exact L|]. exists []. rewrite app_nil_r. reflexivity.
  - pose proof (step_like pr ord1 ord2 tm ev _ _ O1 O2 L U) as K. pose proof (proj1 (ui_step_steady pr ord1 the_executor tm ev u1 O1 U)) as U'.
    destruct (ui_step pr ord1 the_executor tm ev u1) as [[v1 o1] st1], (ui_step pr ord2 the_executor tm ev u2) as [[v2 o2] st2]. cbn [fst snd] in *.
    pose proof K as (K1 & K2 & K3 & (mr & K4) & K5). cbn [fst snd] in *. subst st2. destruct st1; try exact K.
    specialize (IH _ _ K1 U'). destruct (run_events pr ord1 the_executor tm evs v1) as [[w1 p1] q1], (run_events pr ord2 the_executor tm evs v2) as [[w2 p2] q2].
    destruct IH as (I1 & I2 & I3 & (mr2 & I4) & I5). cbn [fst snd] in *. subst q2. split; [exact I1|]. split; [reflexivity|]. cbn [fst snd].
    split; [apply Permutation_app; assumption|]. split; [exists (mr ++ mr2); rewrite I4, K4, app_assoc; reflexivity|].
    destruct I5 as [<-|I5]; [|right; exact I5]. destruct K5 as [<-|(line & Hl & Sl)]; [left; reflexivity|]. right. exists line. split; [|exact Sl]. rewrite I4. apply in_or_app. left. exact Hl.
Qed.
Lemma interactive_like pr ord1 ord2 tm a db evs : (forall n, iterates (ord1 n)) -> (forall n, iterates (ord2 n)) -> valid_settings a -> working_database db ->
  let p1 := interactive pr ord1 the_executor tm a db evs in let p2 := interactive pr ord2 the_executor tm a db evs in
  like_ui (fst (fst p1)) (fst (fst p2)) /\ snd p1 = snd p2 /\ Permutation (snd (fst p1)) (snd (fst p2)) /\
  (snd (fst p1) = snd (fst p2) \/ exists line, List.In line (submitted (fst (fst p1))) /\ reloads_several line).
Proof.
  intros O1 O2 Ha Hd. cbv zeta. unfold interactive.
  pose proof (interactive_steady pr ord1 the_executor tm a db [] O1 Ha Hd) as (U & _). unfold interactive in U.
  assert (Lr : forall u, calm_odb (u_db u) -> like_ui u u).
  { intros u C. split; [reflexivity|]. split; [intros y; reflexivity|]. split; [|auto]. destruct (u_db u) as [sd|]; cbn; [|exact I]. pose proof (C sd eq_refl). auto. }
  destruct (interactive_start pr tm a db) as [[u out] st]. destruct st; cbn [run_events fst snd] in U |- *.
  2-4: split; [apply Lr, (proj1 (proj2 U))|]; auto.
  pose proof (run_like pr ord1 ord2 tm evs O1 O2 u u (Lr _ (proj1 (proj2 U))) U) as K.
  destruct (run_events pr ord1 the_executor tm evs u) as [[w1 p1] q1], (run_events pr ord2 the_executor tm evs u) as [[w2 p2] q2].
  destruct K as (K1 & K2 & K3 & _ & K5). cbn [fst snd] in *. split; [exact K1|]. split; [exact K2|]. split; [apply Permutation_app_head, K3|].
  destruct K5 as [<-|K5]; [left; reflexivity|right; exact K5].
Qed.

(** One line, asked twice. *)
Lemma line_like pr ord1 ord2 input se : working_session se -> iterates ord1 -> iterates ord2 ->
  let '(se1, r1) := calculate pr ord1 the_executor input se in let '(se2, r2) := calculate pr ord2 the_executor input se in
  s_args se1 = s_args se2 /\ s_inputs se1 = s_inputs se2 /\
  (forall y v, remembered (s_env se1) y v <-> remembered (s_env se2) y v) /\
  option_map sd_db (e_db (s_env se1)) = option_map sd_db (e_db (s_env se2)) /\
  (r1 = r2 \/ (reloads_several input /\ exists rows1 rows2, Permutation rows1 rows2 /\ r1 = Ok (join_rows rows1) /\ r2 = Ok (join_rows rows2))).
Proof.
  intros (A & B & R & N & H) O1 O2. destruct se as [a ih s]. cbn [s_args s_env s_inputs] in *.
  assert (Fin : forall s1 s2, like s1 s2 -> (forall y v, remembered s1 y v <-> remembered s2 y v) /\ option_map sd_db (e_db s1) = option_map sd_db (e_db s2)).
  { intros s1 s2 (V & T). split.
    - intros y v. unfold remembered. destruct (e_vars s1) as [m1|], (e_vars s2) as [m2|]; try contradiction; [|split; intros (m & E & _); discriminate E].
      split; intros (m & E & K); injection E as <-; eexists; (split; [reflexivity|]); [rewrite <- (V y)|rewrite (V y)]; exact K.
    - destruct (e_db s1), (e_db s2); try contradiction; [|reflexivity]. cbn. destruct T as (_ & _ & -> & _). reflexivity. }
  assert (Lr : forall s0, no_faults s0 -> like s0 s0).
  { intros s0 C. split; [destruct (e_vars s0); cbn; [intros y; reflexivity|exact I]|]. destruct (e_db s0) as [sd|] eqn:D; cbn; [|exact I]. pose proof (C sd D). auto. }
  destruct ih as [h|].
  - pose proof (calculate_like pr ord1 ord2 input a h s s (Lr _ N) A B R N O1 O2) as (K1 & K2 & K3 & K4).
    destruct (calculate pr ord1 _ _ _) as [se1 r1], (calculate pr ord2 _ _ _) as [se2 r2]. cbn [fst snd] in *. destruct (Fin _ _ K3) as (F1 & F2).
    split; [exact K1|]. split; [exact K2|]. split; [exact F1|]. split; [exact F2|]. exact K4.
  - unfold calculate. cbn [s_inputs s_env s_args].
    pose proof (body_like pr ord1 ord2 input None a s s (Lr _ N) B) as K. cbv zeta in K. rewrite H in K. specialize (K I ltac:(intros sd E; discriminate E) O1 O2). destruct K as (K1 & K3 & K4).
    destruct (calculate_body pr ord1 _ _ _ _ _) as [[a1 s1] r1], (calculate_body pr ord2 _ _ _ _ _) as [[a2 s2] r2]. cbn [fst snd s_args s_inputs s_env] in *.
    destruct (Fin _ _ K3) as (F1 & F2). split; [exact K1|]. split; [reflexivity|]. split; [exact F1|]. split; [exact F2|]. exact K4.
Qed.
Lemma one_shot_like pr ord1 ord2 a input : one_shot pr ord1 a input = one_shot pr ord2 a input.
Proof.
  unfold one_shot. rewrite executor_new_ok. unfold calculate. cbn [s_inputs s_env s_args].
  assert (E : calculate_body pr ord1 the_executor input None a (mkEnv None None) = calculate_body pr ord2 the_executor input None a (mkEnv None None)).
  { unfold calculate_body. destruct (tokenize input (a_radix a)) as [[ts|name arg]|e|p]; [reflexivity| |reflexivity..].
    unfold execute_command. destruct (assoc _ _) as [c|]; [|reflexivity]. destruct c; reflexivity. }
  rewrite E. reflexivity.
Qed.
Lemma main_like pr ord1 ord2 o m evs : (forall n, iterates (ord1 n)) -> (forall n, iterates (ord2 n)) -> valid_settings (o_args o) -> made_file (m_file m) -> database_works m ->
  let r1 := main pr ord1 o m evs in let r2 := main pr ord2 o m evs in
  same_but_order r1 r2 /\ Permutation (out_terminal r1) (out_terminal r2).
Proof.
  intros O1 O2 Ha Hf Hw. cbv zeta. assert (Z : forall r, same_but_order r r /\ Permutation (out_terminal r) (out_terminal r)) by (repeat split; auto).
  rewrite !main_unfold. destruct (o_input o) as [input|]; [rewrite (one_shot_like pr (ord1 0) (ord2 0)); destruct (one_shot _ _ _ _); apply Z|].
  destruct (m_enable_raw m); cbn [negb]; [|apply Z]. destruct (a_alternate_screen (o_args o) && negb (m_enter_screen m)); [apply Z|].
  unfold interactive_calc.
  assert (Go : forall file db, working_database db ->
    let q ord := let '(u, cmds, st) := interactive pr ord the_executor (m_terminal m) (o_args o) db evs in
      (file_of file u, u_args u, cmds, match st with Waiting => Running | Exited => Succeeded | Failed e => FailedWith (Runtime e) | Crashed p => Panicked p end) in
    let w ord := let '(file, a, cmds, e) := q ord in mkOutside file [] [] cmds (restore m a (mkModes true (a_alternate_screen (o_args o))) e) e in
    same_but_order (w ord1) (w ord2) /\ Permutation (out_terminal (w ord1)) (out_terminal (w ord2))).
  { intros file db Hd. cbv zeta. pose proof (interactive_like pr ord1 ord2 (m_terminal m) (o_args o) db evs O1 O2 Ha Hd) as (K1 & K2 & K3 & _).
    destruct (interactive pr ord1 _ _ _ _ _) as [[u1 c1] st1], (interactive pr ord2 _ _ _ _ _) as [[u2 c2] st2]. cbn [fst snd] in *. subst st2.
    destruct K1 as (Ea & _ & T & _). rewrite Ea.
    assert (Ef : file_of file u1 = file_of file u2) by (unfold file_of; destruct (u_db u1), (u_db u2); try contradiction; [apply T|reflexivity]).
    rewrite Ef. split; [repeat split|]. exact K3. }
  destruct (o_no_db o); [apply (Go (m_file m) None); intros sd [=]|]. unfold open_database.
  destruct (m_root m); [apply (Go (m_file m) None); intros sd [=]|apply Z|].
  destruct (m_directory m); [|apply Z]. destruct (sd_open (m_faults m) (m_file m)) as [d r] eqn:So.
  destruct (open_made _ _ _ _ Hf So) as [(F & -> & ->)|(F & sd & -> & Ed & Pf & _ & _ & Ef & _)]; [apply Z|].
  apply (Go d (Some sd)). intros sd0 [= <-]. split; [rewrite Ed; exact Pf|]. rewrite Ef. intros X. apply Hw. destruct (m_faults m); [destruct X|right; exact X].
Qed.
