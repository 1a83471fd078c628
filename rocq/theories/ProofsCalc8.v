(** ProofsCalc8.v -- invariants of the whole interactive program. *)
From Verif Require Import Base Position Num TokenTypes Errors Token SavedData Variables InputHistory
  SyntaxTree Commands Calculate Editor Sessions SpecGrammar SpecEval SpecHistory SpecEditor SpecCalc ProofsNum ProofsEval ProofsEval2 ProofsEval3 ProofsParse
  ProofsDb ProofsDb2 ProofsDb3 ProofsDb4 ProofsEditor ProofsEditor2 ProofsEditor4
  ProofsCalc ProofsCalc2 ProofsCalc3 ProofsCalc4 ProofsCalc5 ProofsCalc6 ProofsCalc7.
From Coq Require Import String Permutation Lia.
Local Open Scope nat_scope.
Local Open Scope list_scope.

(** keys only move the scrollback position of the database handle *)
Definition same_file (o o' : option saved_data) : Prop :=
  match o, o' with Some sd, Some sd' => sd_db sd' = sd_db sd | None, None => True | _, _ => False end.
Lemma same_file_refl o : same_file o o.
Proof. destruct o; cbn; auto. Qed.
Lemma get_prev_file sd sd' o : get_prev_input_history sd = (sd', o) -> sd_db sd' = sd_db sd.
Proof.
  unfold get_prev_input_history. destruct (sd_pos sd) as [id|]; [|intros E; apply pair_equal_spec in E as [<- _]; reflexivity].
  destruct (sd_call _ sd) as [sd1 o1] eqn:C. destruct (sd_call_cases _ _ _ _ C) as (_ & _ & D).
  assert (sd_db sd1 = sd_db sd).
  { destruct D as [(u & _ & M)|[(D & _)|(D & _)]]; auto. unfold sd_call in C. cbv beta in M. destruct (find_hist (d_hist (sd_db sd)) id); apply ok_inj, pair_equal_spec in M as [_ M]; congruence. }
  destruct o1 as [[r|]|e|p]; intros E; apply pair_equal_spec in E as [<- _]; cbn [sd_db]; assumption.
Qed.
Lemma try_earlier_file h db h' db' r : try_earlier h db = (h', db', r) -> same_file db db'.
Proof.
  unfold try_earlier. destruct (Nat.leb _ _); [|intros E; apply pair_equal_spec in E as [E _]; apply pair_equal_spec in E as [_ <-]; apply same_file_refl].
  destruct (ih_exhausted h); [intros E; apply pair_equal_spec in E as [E _]; apply pair_equal_spec in E as [_ <-]; apply same_file_refl|].
  destruct db as [sd|]; [|intros E; apply pair_equal_spec in E as [E _]; apply pair_equal_spec in E as [_ <-]; exact I].
  destruct (get_prev_input_history sd) as [sd' o] eqn:G. pose proof (get_prev_file _ _ _ G) as F.
  destruct o as [[t|]|e|p]; intros E; apply pair_equal_spec in E as [E _]; apply pair_equal_spec in E as [_ <-]; exact F.
Qed.
Lemma handle_event_file ev l h db : match handle_event ev l h db with (_, _, db', _) => same_file db db' end.
Proof.
  pose proof (same_file_refl db) as R.
  destruct ev as [code mods| |width|]; try exact R. cbn [handle_event]. destruct code as [c| | | | | | | | | |]; try exact R.
  - unfold handle_char. destruct (negb (is_ascii c)); [exact R|].
    destruct (N.eqb mods CONTROL && (N.eqb c 100 || N.eqb c 122 || N.eqb c 99)); [exact R|].
    destruct (N.eqb mods CONTROL && (N.eqb c 109 || N.eqb c 110)).
    { destruct (current_line h) as [t|e|p]; try exact R. cbn [or_stop]. destruct (paren_jump t (l_cursor l)) as [[q|]|e|p]; exact R. }
    destruct (N.eqb mods SHIFT); [destruct (insert_char h (l_cursor l) _); exact R|]. destruct (negb (N.eqb mods 0)); [exact R|destruct (insert_char h (l_cursor l) _); exact R].
  - destruct (Nat.eqb (l_cursor l) 0); [exact R|]. destruct (remove_char h _); exact R.
  - destruct (current_line h); cbn [or_stop]; try exact R. destruct (Nat.leb _ _); [exact R|]. destruct (remove_char h _); exact R.
  - destruct (try_earlier h db) as [[h' db'] r] eqn:E. apply try_earlier_file in E. destruct r as [[|]|e|p]; try exact E. destruct (current_line h'); exact E.
  - destruct (try_later h) as [h' b]. destruct b; try exact R. destruct (current_line h'); exact R.
  - destruct (move_distance mods); exact R.
  - destruct (move_distance mods); [|exact R]. destruct (current_line h); exact R.
  - destruct (current_line h); exact R.
Qed.

Definition ui_env (u : ui) : env := mkEnv (Some (u_vars u)) (u_db u).
Definition ui_good (u : ui) : Prop := valid_settings (u_args u) /\ env_ok (ui_env u) /\ real_database (ui_env u).
Lemma good_file a m db db' h l c h' l' c' : same_file db db' -> ui_good (mkUi a m db h l c) -> ui_good (mkUi a m db' h' l' c').
Proof.
  intros F (A & (B1 & B2) & C). unfold ui_good, ui_env, env_ok, real_database in *. cbn [u_args u_vars u_db e_vars e_db] in *.
  split; [exact A|]. split; [split; [exact B1|]|].
  - intros sd' ->. destruct db as [sd|]; [|destruct F]. cbn in F. rewrite F. apply B2. reflexivity.
  - intros sd' ->. destruct db as [sd|]; [|destruct F]. cbn in F. rewrite F. apply C. reflexivity.
Qed.
Lemma start_line_good pr tm u : ui_good u -> ui_good (fst (fst (start_line pr tm u))).
Proof.
  intros G. destruct u as [a m db h l c]. unfold start_line. cbv zeta. cbn [u_args u_vars u_db u_inputs u_line u_count].
  destruct (tm c) as [[col row] w]. destruct (display _ _ _ _ _) as [[l' o]|e|p]; cbn [fst]; (eapply good_file; [|exact G]); apply same_file_refl.
Qed.
Lemma finish_line_good pr ord x tm u : (forall n, iterates (ord n)) -> ui_good u -> ui_good (fst (fst (finish_line pr ord x tm u))).
Proof.
  intros Ho G. unfold finish_line. cbv zeta. destruct (display _ _ _ _ _) as [[l1 out1]|e|p]; [|exact G|exact G].
  destruct (current_line (u_inputs u)) as [input|e|p]; [|exact G|exact G].
  set (se := mkSession (u_args u) (Some (u_inputs u)) (mkEnv (Some (u_vars u)) (u_db u))).
  destruct (calculate pr (ord (u_count u)) x input se) as [se' r] eqn:C. destruct G as (A & B & R).
  destruct (calculate_valid _ _ _ _ _ _ _ (A : valid_settings (s_args se)) (B : env_ok (s_env se)) (Ho _) C) as (A' & B' & V).
  pose proof (calculate_real _ _ _ _ _ _ _ (A : valid_settings (s_args se)) (B : env_ok (s_env se)) (R : real_database (s_env se)) C) as R'.
  destruct (e_vars (s_env se')) as [m'|] eqn:Em; [|exfalso; unfold se in V; cbn in V; destruct V as [_ V]; discriminate (V eq_refl)].
  match goal with |- context [start_line pr tm ?u0] => assert (G' : ui_good u0) end.
  { split; [exact A'|]. assert (ui_env (mkUi (s_args se') m' (e_db (s_env se')) (match s_inputs se' with Some h => h | None => u_inputs u end) (u_line u) (S (u_count u))) = s_env se') as E.
    { unfold ui_env. cbn [u_vars u_db]. destruct (s_env se') as [v d]. cbn in *. congruence. }
    rewrite E. split; assumption. }
  destruct (render r) as [text|e|p]; [|exact G'|exact G'].
  match goal with |- context [start_line pr tm ?u0] => pose proof (start_line_good pr tm u0 G') as SI; destruct (start_line pr tm u0) as [[u'' out3] st] end.
  exact SI.
Qed.
Lemma ui_step_good pr ord x tm ev u : (forall n, iterates (ord n)) -> ui_good u -> ui_good (fst (fst (ui_step pr ord x tm ev u))).
Proof.
  intros Ho G. unfold ui_step. pose proof (handle_event_file ev (u_line u) (u_inputs u) (u_db u)) as F.
  destruct (handle_event ev (u_line u) (u_inputs u) (u_db u)) as [[[l' h'] db'] act].
  assert (G' : forall l0, ui_good (mkUi (u_args u) (u_vars u) db' h' l0 (u_count u))) by (intros l0; destruct u; eapply good_file; [exact F|exact G]).
  destruct act; try apply G'.
  - destruct (display _ _ _ _ _) as [[l'' out]|e|p]; apply G'.
  - apply finish_line_good; [exact Ho|apply G'].
Qed.
Lemma run_events_good pr ord x tm evs : (forall n, iterates (ord n)) -> forall u, ui_good u -> ui_good (fst (fst (run_events pr ord x tm evs u))).
Proof.
  intros Ho. induction evs as [|ev evs IH]; intros u G; [exact G|]. cbn [run_events]. pose proof (ui_step_good pr ord x tm ev u Ho G) as S.
  destruct (ui_step pr ord x tm ev u) as [[u' out] st]. cbn [fst] in S. destruct st; try exact S.
  specialize (IH u' S). destruct (run_events pr ord x tm evs u') as [[u'' out'] st']. exact IH.
Qed.
Lemma interactive_good pr ord x tm a db evs : (forall n, iterates (ord n)) -> valid_settings a -> (forall sd, db = Some sd -> program_file (sd_db sd)) ->
  ui_good (fst (fst (interactive pr ord x tm a db evs))).
Proof.
  intros Ho Ha Hd. unfold interactive.
  assert (K : ui_good (fst (fst (interactive_start pr tm a db)))).
  { apply start_line_good. split; [exact Ha|]. split; [split|].
    - intros m y v E. cbn in E. injection E as <-. discriminate.
    - intros sd E. apply file_rows, Hd, E.
    - intros sd E. apply Hd, E. }
  destruct (interactive_start pr tm a db) as [[u out] st]. cbn [fst] in K. destruct st; try exact K.
  pose proof (run_events_good pr ord x tm evs Ho u K) as R. destruct (run_events pr ord x tm evs u) as [[u' out'] st']. exact R.
Qed.
