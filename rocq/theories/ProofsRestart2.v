(** ProofsRestart2.v -- sessions as wholes: what is saved at any moment. *)
From Verif Require Import Base Position Num TokenTypes Errors Token SavedData Variables InputHistory
  SyntaxTree Commands Calculate Editor Sessions Main SpecGrammar SpecEval SpecPrint SpecHistory SpecEditor SpecCalc SpecCommands SpecSession SpecData SpecMain.
From Verif Require Import ProofsEditor ProofsEditor2 ProofsEditor4 ProofsEval ProofsDb ProofsDb2 ProofsDb3 ProofsDb4 ProofsDb5 ProofsCalc3 ProofsCalc4 ProofsCalc5 ProofsCalc6 ProofsCalc7 ProofsCalc8 ProofsCalc9 ProofsCalc10
  ProofsCalm ProofsCalm2 ProofsCommands2 ProofsSession ProofsSession2 ProofsData ProofsMain ProofsRestart.
From Coq Require Import String Lia.
Local Open Scope nat_scope.
Local Open Scope list_scope.

(** keys other than Enter submit nothing *)
Lemma edit_internal {E} f h h' : @edit_current E f h = Ok h' -> ih_internal h' = ih_internal h.
Proof.
  unfold edit_current, ensure_populated. destruct (nth_ok (ih_current h) (ih_index h)) as [[s|]|e|p] eqn:N; cbn [bind]; try discriminate.
  - rewrite N. cbn [bind]. destruct (f s) as [s'|e|p]; cbn [bind]; try discriminate. intros X. apply ok_inj in X as <-. reflexivity.
  - destruct (current_line h) as [line|e|p]; cbn [bind]; try discriminate. cbn [ih_current ih_index ih_internal ih_db ih_exhausted].
    destruct (nth_ok (list_set _ _ _) _) as [[s|]|e|p]; cbn [bind]; try discriminate. destruct (f s) as [s'|e|p]; cbn [bind]; try discriminate.
    intros X. apply ok_inj in X as <-. reflexivity.
Qed.
Lemma earlier_internal h db h' db' r : try_earlier h db = (h', db', r) -> ih_internal h' = ih_internal h.
Proof.
  unfold try_earlier. destruct (Nat.leb _ _); [|intros E; apply pair_equal_spec in E as [E _]; apply pair_equal_spec in E as [<- _]; reflexivity].
  destruct (ih_exhausted h); [intros E; apply pair_equal_spec in E as [E _]; apply pair_equal_spec in E as [<- _]; reflexivity|].
  destruct db as [sd|]; [|intros E; apply pair_equal_spec in E as [E _]; apply pair_equal_spec in E as [<- _]; reflexivity].
  destruct (get_prev_input_history sd) as [sd' [[t|]|e|p]]; intros E; apply pair_equal_spec in E as [E _]; apply pair_equal_spec in E as [<- _]; reflexivity.
Qed.
Lemma later_internal h h' b : try_later h = (h', b) -> ih_internal h' = ih_internal h.
Proof. unfold try_later. destruct (ih_index h); intros E; apply pair_equal_spec in E as [<- _]; reflexivity. Qed.
Definition internal_kept (h : input_history) (r : ev_result) : Prop := let '(_, h', _, _) := r in ih_internal h' = ih_internal h.
Lemma handle_event_internal ev l h db : internal_kept h (handle_event ev l h db).
Proof.
  assert (Ed : forall (r : outcome runtime_error input_history) l' a, (forall h', r = Ok h' -> ih_internal h' = ih_internal h) -> internal_kept h (or_stop r l h db (fun h' => (l', h', db, a)))).
  { intros r l' a K. destruct r as [h'|e|p]; cbn; [apply K; reflexivity|reflexivity|reflexivity]. }
  assert (Cu : forall k, (forall t, internal_kept h (k t)) -> internal_kept h (or_stop (@current_line runtime_error h) l h db k)).
  { intros k K. destruct (@current_line runtime_error h) as [t|e|p]; cbn; [apply K|reflexivity|reflexivity]. }
  destruct ev as [code mods| |width|]; try reflexivity. cbn [handle_event]. destruct code as [c| | | | | | | | | |]; try reflexivity.
  - unfold handle_char. destruct (negb (is_ascii c)); [reflexivity|].
    destruct (N.eqb mods CONTROL && (N.eqb c 100 || N.eqb c 122 || N.eqb c 99)); [reflexivity|].
    destruct (N.eqb mods CONTROL && (N.eqb c 109 || N.eqb c 110)).
    { apply Cu. intros t. destruct (paren_jump t (l_cursor l)) as [[q|]|e|p]; reflexivity. }
    destruct (N.eqb mods SHIFT); [apply Ed; intros h' H; eapply edit_internal; exact H|]. destruct (negb (N.eqb mods 0)); [reflexivity|apply Ed; intros h' H; eapply edit_internal; exact H].
  - destruct (Nat.eqb_spec (l_cursor l) 0); [reflexivity|]. apply Ed; intros h' H; eapply edit_internal; exact H.
  - apply Cu. intros t. destruct (Nat.leb_spec (List.length t) (l_cursor l)); [reflexivity|]. apply Ed; intros h' H'; eapply edit_internal; exact H'.
  - destruct (try_earlier h db) as [[h' db'] r] eqn:E. pose proof (earlier_internal _ _ _ _ _ E) as H'.
    destruct r as [[|]|e|p]; try exact H'. destruct (current_line h') as [?|?|?]; exact H'.
  - destruct (try_later h) as [h' b] eqn:E. pose proof (later_internal _ _ _ E) as H'.
    destruct b; try exact H'. destruct (current_line h') as [?|?|?]; exact H'.
  - destruct (move_distance mods); reflexivity.
  - destruct (move_distance mods); [|reflexivity]. apply Cu. reflexivity.
  - apply Cu. reflexivity.
Qed.

(** the part of the story between two states of a session *)
Definition grows (u u' : ui) : Prop := exists new, submitted u' = submitted u ++ new /\
  forall sd, u_db u = Some sd -> exists sd', u_db u' = Some sd' /\
   ((forall line radix, In line new -> ~ is_histcap radix line) -> forall n, room_for (sd_db sd) (List.length new + n) -> all_saved (ui_env u) ->
    all_saved (ui_env u') /\ room_for (sd_db sd') n /\ texts_of (sd_db sd') = texts_of (sd_db sd) ++ new).
Lemma grows_refl u : grows u u.
Proof.
  exists []. rewrite app_nil_r. split; [reflexivity|]. intros sd E. exists sd. split; [exact E|]. intros _ n R A. split; [exact A|]. split; [exact R|]. rewrite app_nil_r. reflexivity.
Qed.
Lemma grows_trans u1 u2 u3 : grows u1 u2 -> grows u2 u3 -> grows u1 u3.
Proof.
  intros (n1 & E1 & K1) (n2 & E2 & K2). exists (n1 ++ n2). split; [rewrite E2, E1, app_assoc; reflexivity|].
  intros sd D. destruct (K1 sd D) as (sd2 & D2 & F1). destruct (K2 sd2 D2) as (sd3 & D3 & F2). exists sd3. split; [exact D3|].
  intros Nh n R A. destruct (F1 (fun l r I => Nh l r (in_or_app _ _ _ (or_introl I))) (List.length n2 + n)) as (A2 & R2 & T2); [rewrite app_length in R; rewrite Nat.add_assoc; exact R|exact A|].
  destruct (F2 (fun l r I => Nh l r (in_or_app _ _ _ (or_intror I))) n R2 A2) as (A3 & R3 & T3). split; [exact A3|]. split; [exact R3|]. rewrite T3, T2, app_assoc. reflexivity.
Qed.
(** nothing submitted, same file and variables *)
Lemma grows_still u u' : submitted u' = submitted u -> u_vars u' = u_vars u -> same_file (u_db u) (u_db u') -> grows u u'.
Proof.
  intros S V F. exists []. rewrite app_nil_r. split; [exact S|]. intros sd E. rewrite E in F. destruct (u_db u') as [sd'|] eqn:D; [|destruct F]. cbn in F.
  exists sd'. split; [reflexivity|]. intros _ n R A. rewrite app_nil_r, F. split; [|split; [exact R|reflexivity]].
  intros y v (m & Em & G). cbn [ui_env e_vars] in Em. rewrite V in Em. destruct (A y v) as (sd0 & E0 & D0); [exists m; auto|]. cbn [ui_env e_db] in E0.
  exists sd'. split; [cbn; exact D|]. rewrite F. congruence.
Qed.
Lemma grows_start pr tm u u0 : grows u0 u -> grows u0 (fst (fst (start_line pr tm u))).
Proof.
  intros G. eapply grows_trans; [exact G|]. unfold start_line. cbv zeta. destruct (display _ _ _ _ _) as [[? ?]|?|?]; cbn [fst]; apply grows_still; try reflexivity; apply same_file_refl.
Qed.

Lemma grows_finish pr ord tm u : (forall n, iterates (ord n)) -> ui_steady u -> history_of_session (u_inputs u) ->
  grows u (fst (fst (finish_line pr ord the_executor tm u))).
Proof.
  intros Ho U Hh. unfold finish_line. cbv zeta. destruct (display _ _ _ _ _) as [[l1 out1]|e|p]; [|apply grows_refl|apply grows_refl].
  destruct (current_line (u_inputs u)) as [input|e|p] eqn:L; [|apply grows_refl|apply grows_refl].
  change (mkSession (u_args u) (Some (u_inputs u)) (mkEnv (Some (u_vars u)) (u_db u))) with (session_of u).
  destruct (calculate pr (ord (u_count u)) the_executor input (session_of u)) as [se' r] eqn:C.
  destruct U as ((A & B & R) & (Cm & Ex)).
  assert (W : working_session (session_of u)) by (split; [exact A|]; split; [exact B|]; split; [exact R|]; split; [exact Cm|exact Hh]).
  destruct (recorded_session _ _ _ _ _ _ _ _ _ _ Hh L C) as (h' & Eh & _ & _). 
  assert (Ei : ih_internal h' = ih_internal (u_inputs u) ++ [input]).
  { destruct (calculate_cases _ _ _ _ _ _ _ C) as [(_ & _ & h0 & h1 & db' & o & E0 & E1 & F & _)|(id & _ & _ & K)].
    - cbn in E0. injection E0 as <-. assert (h1 = h') by congruence. subst h1. unfold input_finished in F. rewrite L in F.
      cbn [session_of s_env e_db] in F. destruct (u_db u) as [sd|]; [destruct (add_to_input_history input sd) as [? [?|?|?]]|]; apply pair_equal_spec in F as [F _]; apply pair_equal_spec in F as [<- _]; reflexivity.
    - cbn [session_of s_inputs] in K. destruct K as (h1 & db' & E1 & F). assert (h1 = h') by congruence. subst h1. unfold input_finished in F. rewrite L in F.
      cbn [session_of s_env e_db] in F. destruct (u_db u) as [sd|]; [destruct (add_to_input_history input sd) as [? [?|?|?]]|]; apply pair_equal_spec in F as [F _]; apply pair_equal_spec in F as [<- _]; reflexivity. }
  rewrite Eh.
  match goal with |- context [start_line pr tm ?u0] => assert (G : grows u u0) end.
  { exists [input]. split; [exact Ei|]. intros sd Ed. cbn [u_db].
    destruct (calculate_db _ _ _ _ (session_of u) _ _ A B (Ho _) C) as (_ & Db). cbn [session_of s_env e_db] in Db.
    destruct (e_db (s_env se')) as [sd'|] eqn:Ed'; [|specialize (Db eq_refl); congruence]. exists sd'. split; [reflexivity|].
    intros Nh n Rm As. unfold session_of in C, W. rewrite Ed in C, W. unfold ui_env in As. rewrite Ed in As.
    destruct (line_saved _ _ _ _ _ _ _ _ _ _ n W L (Ho _) As Rm (Nh input _ (or_introl eq_refl)) C) as (m' & sd2 & Ee & As' & Rm' & id & I).
    rewrite Ee in Ed' |- *. cbn in Ed'. injection Ed' as <-. unfold ui_env. cbn [u_vars u_db e_vars]. rewrite <- Ee. split; [exact As'|]. split; [exact Rm'|].
    unfold texts_of. rewrite I, map_app. reflexivity. }
  destruct (render r) as [text|e|p]; [|exact G|exact G].
  match goal with |- context [start_line pr tm ?u0] => pose proof (grows_start pr tm u0 u G) as SI; destruct (start_line pr tm u0) as [[u'' out3] st] end.
  exact SI.
Qed.
Lemma grows_step pr ord tm ev u : (forall n, iterates (ord n)) -> ui_steady u -> ui_ok u -> history_of_session (u_inputs u) ->
  grows u (fst (fst (ui_step pr ord the_executor tm ev u))).
Proof.
  intros Ho (G & S) Hok Hh. unfold ui_step. pose proof (handle_event_file ev (u_line u) (u_inputs u) (u_db u)) as F.
  pose proof (handle_event_internal ev (u_line u) (u_inputs u) (u_db u)) as I.
  pose proof (handle_event_steady ev (u_line u) (u_inputs u) (u_db u) S) as K.
  pose proof (handle_event_history ev (u_line u) (u_inputs u) (u_db u) Hh (proj2 Hok)) as Hh'.
  destruct (handle_event ev (u_line u) (u_inputs u) (u_db u)) as [[[l' h'] db'] act]. cbn [internal_kept] in I. destruct K as (S' & P). cbn [history_result] in Hh'.
  assert (G' : forall l0, grows u (mkUi (u_args u) (u_vars u) db' h' l0 (u_count u))) by (intros l0; apply grows_still; [exact I|reflexivity|exact F]).
  destruct act; try apply G'.
  - destruct (display _ _ _ _ _) as [[l'' out]|e|p]; apply G'.
  - eapply grows_trans; [apply (G' l')|]. apply grows_finish; [exact Ho| |exact Hh'].
    split; [destruct u; eapply good_file; [exact F|exact G]|exact S'].
Qed.
Lemma grows_run pr ord tm evs : (forall n, iterates (ord n)) -> forall u, ui_steady u -> ui_ok u -> history_of_session (u_inputs u) ->
  grows u (fst (fst (run_events pr ord the_executor tm evs u))).
Proof.
  intros Ho. induction evs as [|ev evs IH]; intros u U O H; [apply grows_refl|]. cbn [run_events].
  pose proof (grows_step pr ord tm ev u Ho U O H) as G. pose proof (proj1 (ui_step_steady pr ord the_executor tm ev u Ho U)) as U'.
  pose proof (ui_step_ok pr ord the_executor tm ev u O) as O'. pose proof (ui_step_history pr ord the_executor tm ev u H (proj2 O)) as H'.
  destruct (ui_step pr ord the_executor tm ev u) as [[u' out] st]. cbn [fst snd] in *. destruct st; try exact G.
  specialize (IH u' U' (O' eq_refl) H'). destruct (run_events pr ord the_executor tm evs u') as [[u'' out'] st']. cbn [fst] in *. eapply grows_trans; eauto.
Qed.
Lemma session_saved pr ord tm a sd evs : (forall n, iterates (ord n)) -> valid_settings a -> program_file (sd_db sd) -> ~ In true (sd_faults sd) ->
  let u := fst (fst (interactive pr ord the_executor tm a (Some sd) evs)) in
  exists sd', u_db u = Some sd' /\
   ((forall line radix, In line (submitted u) -> ~ is_histcap radix line) -> forall n, room_for (sd_db sd) (List.length (submitted u) + n) ->
    all_saved (ui_env u) /\ room_for (sd_db sd') n /\ texts_of (sd_db sd') = texts_of (sd_db sd) ++ submitted u).
Proof.
  intros Ho Ha Pf Cm. cbv zeta.
  assert (Hd : forall sd0, Some sd = Some sd0 -> program_file (sd_db sd0) /\ ~ In true (sd_faults sd0)) by (intros sd0 [= <-]; auto).
  set (u0 := mkUi a vs_new (Some sd) (ih_new true) (mkLine 0 0 (0, 0) 0) 0).
  assert (G : grows u0 (fst (fst (interactive pr ord the_executor tm a (Some sd) evs)))).
  { pose proof (interactive_steady pr ord the_executor tm a (Some sd) [] Ho Ha Hd) as (U & _). unfold interactive in U |- *.
    assert (G0 : grows u0 (fst (fst (interactive_start pr tm a (Some sd))))) by (apply grows_start, grows_refl).
    assert (O0 : ui_ok (fst (fst (interactive_start pr tm a (Some sd))))) by (apply start_line_ok; apply ih_new_ok).
    assert (H0 : history_of_session (u_inputs (fst (fst (interactive_start pr tm a (Some sd)))))) by (unfold interactive_start; rewrite start_line_inputs; apply history_new).
    destruct (interactive_start pr tm a (Some sd)) as [[u out] st]. cbn [fst] in *. destruct st; try exact G0. cbn [run_events fst] in U.
    pose proof (grows_run pr ord tm evs Ho u U O0 H0) as R. destruct (run_events pr ord the_executor tm evs u) as [[u' out'] st']. cbn [fst] in *. eapply grows_trans; eauto. }
  destruct G as (new & E & K). change (submitted u0 ++ new) with new in E. destruct (K sd eq_refl) as (sd' & D & F). exists sd'. split; [exact D|].
  rewrite E. intros Nh n R. apply F; auto. intros y v (m & Em & Gm). cbn in Em. injection Em as <-. discriminate Gm.
Qed.
