(** PropertiesLines.v -- only the submitted lines matter, not how they were typed (C109). *)
From Verif Require Import Base Position Num TokenTypes Errors Token Operations SavedData Variables InputHistory
  SyntaxTree Commands Calculate Editor Sessions Main SpecLex SpecGrammar SpecEval SpecHistory SpecSyntax SpecEditor SpecCalc SpecSession SpecMain SpecTerminal SpecReport SpecLines.
From Verif Require Import ProofsDb4 ProofsParse2 ProofsCalc ProofsCalc4 ProofsSession ProofsMain ProofsReport ProofsLines PropertiesCalc PropertiesEditor PropertiesMain.
From Coq Require Import String Lia.
Local Open Scope nat_scope.
Local Open Scope list_scope.

Lemma opened_twins m o file db : database_works m -> made_file (m_file m) ->
  (if o_no_db o then (m_file m, inr (Ok None)) else open_database m) = (file, @inr main_error _ (Ok db)) ->
  (forall sd, db = Some sd -> program_file (sd_db sd) /\ healthy sd /\ sd_db sd = file).
Proof.
  intros W Hm E sd ->. destruct (o_no_db o); [discriminate E|]. unfold open_database in E. destruct (m_root m); try discriminate E. destruct (m_directory m); [|discriminate E].
  destruct (sd_open (m_faults m) (m_file m)) as [d' r] eqn:Op. destruct (open_made _ _ _ _ Hm Op) as [(_ & _ & ->)|(_ & sd' & -> & Sd & P & _ & _ & F & _)]; [discriminate E|]. injection E as <- <-.
  split; [rewrite Sd; exact P|]. split; [|exact Sd]. unfold healthy. rewrite F. intros I. apply W. destruct (m_faults m); [exact I|right; exact I].
Qed.
(** Opening does the same on the same file. *)
Lemma opened_same m1 m2 o file1 file2 db1 db2 : database_works m1 -> database_works m2 -> made_file (m_file m1) ->
  m_file m1 = m_file m2 -> m_root m1 = m_root m2 ->
  (if o_no_db o then (m_file m1, inr (Ok None)) else open_database m1) = (file1, @inr main_error _ (Ok db1)) ->
  (if o_no_db o then (m_file m2, inr (Ok None)) else open_database m2) = (file2, @inr main_error _ (Ok db2)) ->
  file1 = file2 /\ twins db1 db2.
Proof.
  intros W1 W2 Hm Ef Er E1 E2. pose proof (opened_twins _ _ _ _ W1 Hm E1) as T1. pose proof Hm as Hm2. rewrite Ef in Hm2. pose proof (opened_twins _ _ _ _ W2 Hm2 E2) as T2.
  assert (D : file1 = file2 /\ (db1 = None <-> db2 = None)).
  { destruct (o_no_db o); [injection E1 as <- <-; injection E2 as <- <-; split; [exact Ef|tauto]|]. unfold open_database in E1, E2. rewrite <- Er, <- Ef in E2. destruct (m_root m1).
    - injection E1 as <- <-. injection E2 as <- <-. split; [reflexivity|tauto].
    - discriminate E1.
    - destruct (m_directory m1); [|discriminate E1]. destruct (m_directory m2); [|discriminate E2].
      unfold sd_open in E1, E2.
      assert (Tw : twin (mkSD (m_file m1) None (m_faults m1)) (mkSD (m_file m1) None (m_faults m2))) by (split; [reflexivity|split; assumption]).
      destruct (call_twin tx_open _ _ Tw) as (Q & Q' & _). destruct (sd_call tx_open (mkSD (m_file m1) None (m_faults m1))) as [s1 r1]. destruct (sd_call tx_open (mkSD (m_file m1) None (m_faults m2))) as [s2 r2]. cbn [fst snd] in Q, Q'. subst r2.
      destruct r1 as [fr|e|p]; [|discriminate E1..]. injection E1 as <- <-. injection E2 as <- <-. split; [exact Q'|split; discriminate]. }
  destruct D as (D1 & D2 & D3). split; [exact D1|]. destruct db1 as [s1|], db2 as [s2|]; [|discriminate (D3 eq_refl)|discriminate (D2 eq_refl)|exact Logic.I].
  destruct (T1 s1 eq_refl) as (_ & H1 & F1). destruct (T2 s2 eq_refl) as (_ & H2 & F2). split; [congruence|split; assumption].
Qed.

Lemma same_lines : forall pr ord o m1 m2 evs1 evs2 u1 u2, (forall n, iterates (ord n)) -> valid_settings (o_args o) -> made_file (m_file m1) ->
  database_works m1 -> database_works m2 -> m_file m1 = m_file m2 -> m_root m1 = m_root m2 ->
  session_at pr ord o m1 evs1 u1 -> session_at pr ord o m2 evs2 u2 -> submitted u1 = submitted u2 ->
  u_args u1 = u_args u2 /\ u_vars u1 = u_vars u2 /\ option_map sd_db (u_db u1) = option_map sd_db (u_db u2).
Proof.
  intros pr ord o m1 m2 evs1 evs2 u1 u2 Ho Ha Hm W1 W2 Ef Er (x & file1 & db1 & X & E1 & ->) (x2 & file2 & db2 & X2 & E2 & ->) Es.
  rewrite executor_new_ok in X. injection X as <-. rewrite executor_new_ok in X2. injection X2 as <-.
  pose proof (opened_twins _ _ _ _ W1 Hm E1) as T1. pose proof Hm as Hm2. rewrite Ef in Hm2. pose proof (opened_twins _ _ _ _ W2 Hm2 E2) as T2.
  destruct (opened_same _ _ _ _ _ _ _ W1 W2 Hm Ef Er E1 E2) as (_ & Tw).
  assert (Tw1 : twins db1 db1) by (destruct db1 as [sd|]; [|exact Logic.I]; destruct (T1 sd eq_refl) as (_ & H & _); split; [reflexivity|split; exact H]).
  pose proof (beside_comes _ _ (interactive_beside pr ord Ho (o_args o) db1 db1 (m_terminal m1) evs1 Tw1 Ha (fun sd D => proj1 (T1 sd D)))) as (A1 & V1 & D1).
  pose proof (beside_comes _ _ (interactive_beside pr ord Ho (o_args o) db1 db2 (m_terminal m2) evs2 Tw Ha (fun sd D => proj1 (T2 sd D)))) as (A2 & V2 & D2).
  rewrite <- Es in A2, V2, D2. split; [congruence|]. split; [congruence|]. congruence.
Qed.

(** ** C109 *)
(** Wherever a session has got to, it stands as if the lines submitted in it so far had been evaluated one after the other,
    with nothing typed, deleted, recalled, resized or looked at in between. *)
Theorem C109_session : forall pr ord o m evs u, (forall n, iterates (ord n)) -> valid_settings (o_args o) -> made_file (m_file m) ->
  database_works m -> session_at pr ord o m evs u ->
  exists x file db, executor_new (E := Empty_set) = Ok x /\
    (if o_no_db o then (m_file m, inr (Ok None)) else open_database m) = (file, inr (Ok db)) /\
    comes_to (evaluated pr ord x 0 (submitted u) (new_session (o_args o) db)) u.
Proof.
  intros pr ord o m evs u Ho Ha Hm W (x & file & db & X & E & ->). pose proof X as X'. rewrite executor_new_ok in X'. injection X' as <-. exists the_executor, file, db. split; [exact X|]. split; [exact E|].
  pose proof (opened_twins _ _ _ _ W Hm E) as T. apply beside_comes, interactive_beside; [exact Ho| |exact Ha|intros sd D; apply T, D].
  destruct db as [sd|]; [|exact Logic.I]. destruct (T sd eq_refl) as (_ & H & _). split; [reflexivity|split; exact H].
Qed.
Print Assumptions C109_session.

(** Two sessions on the same file in which the same lines were submitted, however they were typed and on whatever terminals,
    agree in their settings, in the variables they hold and in what they have made of the file. *)
Theorem C109_same_lines : forall pr ord o m1 m2 evs1 evs2 u1 u2, (forall n, iterates (ord n)) -> valid_settings (o_args o) -> made_file (m_file m1) ->
  database_works m1 -> database_works m2 -> m_file m1 = m_file m2 -> m_root m1 = m_root m2 ->
  session_at pr ord o m1 evs1 u1 -> session_at pr ord o m2 evs2 u2 -> submitted u1 = submitted u2 ->
  u_args u1 = u_args u2 /\ u_vars u1 = u_vars u2 /\ file_of (m_file m1) u1 = file_of (m_file m2) u2.
Proof.
  intros pr ord o m1 m2 evs1 evs2 u1 u2 Ho Ha Hm W1 W2 Ef Er S1 S2 Es. destruct (same_lines pr ord o m1 m2 evs1 evs2 u1 u2 Ho Ha Hm W1 W2 Ef Er S1 S2 Es) as (A & V & D).
  split; [exact A|]. split; [exact V|]. unfold file_of. destruct (u_db u1), (u_db u2); try discriminate D; [injection D as D; exact D|exact Ef].
Qed.
Print Assumptions C109_same_lines.
(** So the two programs leave the same file. *)
Theorem C109_file : forall pr ord o m1 m2 evs1 evs2 u1 u2, (forall n, iterates (ord n)) -> valid_settings (o_args o) -> made_file (m_file m1) ->
  database_works m1 -> database_works m2 -> m_file m1 = m_file m2 -> m_root m1 = m_root m2 ->
  o_input o = None -> terminal_starts o m1 -> terminal_starts o m2 ->
  session_at pr ord o m1 evs1 u1 -> session_at pr ord o m2 evs2 u2 -> submitted u1 = submitted u2 ->
  out_file (main pr ord o m1 evs1) = out_file (main pr ord o m2 evs2).
Proof.
  intros pr ord o m1 m2 evs1 evs2 u1 u2 Ho Ha Hm W1 W2 Ef Er Hi S1 S2 A1 A2 Es. destruct (same_lines pr ord o m1 m2 evs1 evs2 u1 u2 Ho Ha Hm W1 W2 Ef Er A1 A2 Es) as (_ & _ & F).
  destruct A1 as (x1 & file1 & db1 & X1 & E1 & U1), A2 as (x2 & file2 & db2 & X2 & E2 & U2). destruct (opened_same _ _ _ _ _ _ _ W1 W2 Hm Ef Er E1 E2) as (Fe & _).
  rewrite executor_new_ok in X1. injection X1 as <-. rewrite executor_new_ok in X2. injection X2 as <-.
  assert (M : forall m evs file db, terminal_starts o m -> (if o_no_db o then (m_file m, inr (Ok None)) else open_database m) = (file, inr (Ok db)) ->
    out_file (main pr ord o m evs) = file_of file (fst (fst (interactive pr ord the_executor (m_terminal m) (o_args o) db evs)))).
  { intros m evs file db (T1 & T2) E. rewrite main_unfold, Hi, T1. cbn [negb]. assert (K : a_alternate_screen (o_args o) && negb (m_enter_screen m) = false) by (destruct (a_alternate_screen (o_args o)); [rewrite (T2 eq_refl)|]; reflexivity).
    rewrite K. cbv zeta. unfold interactive_calc. cbv zeta. rewrite E. destruct (interactive pr ord the_executor (m_terminal m) (o_args o) db evs) as [[u c] st]. reflexivity. }
  rewrite (M m1 evs1 _ _ S1 E1), (M m2 evs2 _ _ S2 E2), <- U1, <- U2, <- Fe. unfold file_of. destruct (u_db u1), (u_db u2); try discriminate F; [injection F as F; exact F|reflexivity].
Qed.
Print Assumptions C109_file.

(** What was said: in any session on any terminal, the lines of the dialogue are the submitted ones, and the dialogue is the one
    those lines make when each is simply typed and entered. *)
Theorem C109_said : forall pr ord a db evs g replies u g', (forall n, iterates (ord n)) -> valid_settings a -> working_database db ->
  told_session pr ord the_executor a db evs g replies u g' ->
  submitted u = map fst replies /\ exists se', dialogue pr ord the_executor 0 (new_session a db) (submitted u) se' replies /\ comes_to se' u.
Proof. intros pr ord a db evs g replies u g' Ho Ha Hd T. exact (told_lines pr ord Ho a db evs g replies u g' Ha Hd T). Qed.
Print Assumptions C109_said.
(** So the same lines get the same replies, however they are typed, on terminals of any kind and size. *)
Theorem C109_same_replies : forall pr ord a db evs1 g1 replies1 u1 g1' evs2 g2 replies2 u2 g2', (forall n, iterates (ord n)) -> valid_settings a -> working_database db ->
  told_session pr ord the_executor a db evs1 g1 replies1 u1 g1' -> told_session pr ord the_executor a db evs2 g2 replies2 u2 g2' ->
  map fst replies1 = map fst replies2 -> replies1 = replies2.
Proof.
  intros pr ord a db evs1 g1 replies1 u1 g1' evs2 g2 replies2 u2 g2' Ho Ha Hd T1 T2 E.
  destruct (told_lines pr ord Ho _ _ _ _ _ _ _ Ha Hd T1) as (E1 & s1 & D1 & _). destruct (told_lines pr ord Ho _ _ _ _ _ _ _ Ha Hd T2) as (E2 & s2 & D2 & _).
  rewrite E1 in D1. rewrite E2, <- E in D2. clear - D1 D2. revert D1 D2. generalize (new_session a db) as se. generalize 0. generalize (map fst replies1) as lines. intros lines n se D1. revert s2 replies2.
  induction D1 as [n se|n se line lines se1 r text s1 rest C R D1 IH]; intros s2 replies2 D2.
  - inversion D2. reflexivity.
  - inversion D2 as [|? ? ? ? se1' r' text' ? rest' C' R' D2']; subst. rewrite C in C'. apply pair_equal_spec in C' as [<- <-].
    apply reply_render in R. apply reply_render in R'. rewrite R in R'. apply ok_inj in R' as <-. f_equal. eapply IH, D2'.
Qed.
Print Assumptions C109_same_replies.

(** A sum typed with a slip, mended and entered, then recalled with Up and entered again after the window was resized; and
    the same two lines just typed.  In both sessions the same lines were submitted. *)
Definition fumbled : list event :=
  keys_of (lit "2+3*") ++ [EvKey KBackspace 0; EvKey KEnter 0; EvResize 60; EvKey KUp 0; EvKey KLeft 0; EvKey KEnter 0; EvKey (KChar 120%N) 0].
Definition straight : list event := typing_lines [lit "2+3"; lit "2+3"].
Lemma fresh_made : made_file empty_db.
Proof. exists fresh. split; [exists []; split; [intros ? ? ? ? ? []|reflexivity]|reflexivity]. Qed.
Example C109_example : exists u1 u2,
  session_at Debug (fun _ => order) plain (machine0 empty_db) fumbled u1 /\ session_at Debug (fun _ => order) plain (machine0 empty_db) straight u2 /\
  submitted u1 = [lit "2+3"; lit "2+3"] /\ submitted u2 = [lit "2+3"; lit "2+3"] /\
  file_of empty_db u1 = file_of empty_db u2 /\ texts_of (file_of empty_db u1) = [lit "2+3"; lit "2+3"].
Proof.
  assert (O : exists db, open_database (machine0 empty_db) = (fst (open_database (machine0 empty_db)), inr (Ok (Some db)))) by (vm_compute; eexists; reflexivity).
  destruct O as (sd & O). exists (fst (fst (interactive Debug (fun _ => order) the_executor term80 a0 (Some sd) fumbled))), (fst (fst (interactive Debug (fun _ => order) the_executor term80 a0 (Some sd) straight))).
  assert (S1 : forall evs, session_at Debug (fun _ => order) plain (machine0 empty_db) evs (fst (fst (interactive Debug (fun _ => order) the_executor term80 a0 (Some sd) evs)))).
  { intros evs. exists the_executor, (fst (open_database (machine0 empty_db))), (Some sd). split; [apply executor_new_ok|]. split; [exact O|reflexivity]. }
  split; [apply S1|]. split; [apply S1|].
  assert (Sd : sd = match snd (open_database (machine0 empty_db)) with inr (Ok (Some d)) => d | _ => sd end) by (rewrite O at 1; reflexivity).
  assert (E1 : submitted (fst (fst (interactive Debug (fun _ => order) the_executor term80 a0 (Some sd) fumbled))) = [lit "2+3"; lit "2+3"]) by (rewrite Sd; vm_compute; reflexivity).
  assert (E2 : submitted (fst (fst (interactive Debug (fun _ => order) the_executor term80 a0 (Some sd) straight))) = [lit "2+3"; lit "2+3"]) by (rewrite Sd; vm_compute; reflexivity).
  split; [exact E1|]. split; [exact E2|]. split; [|rewrite Sd; vm_compute; reflexivity].
  refine (proj2 (proj2 (C109_same_lines Debug (fun _ => order) plain (machine0 empty_db) (machine0 empty_db) fumbled straight _ _ (fun _ => order_ok) a0_ok _ _ _ eq_refl eq_refl (S1 _) (S1 _) (eq_trans E1 (eq_sym E2))))).
  - exact fresh_made.
  - intros [].
  - intros [].
Qed.
