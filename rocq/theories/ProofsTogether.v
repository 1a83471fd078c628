(** ProofsTogether.v -- programs sharing a file (C81): the file and the sessions. *)
From Verif Require Import Base Position Num TokenTypes Errors Token SavedData Variables InputHistory
  SyntaxTree Commands Calculate Editor Sessions Main Io Together SpecGrammar SpecEval SpecHistory SpecEditor SpecCalc SpecCommands SpecSession SpecData SpecMain SpecTogether.
From Verif Require Import ProofsEval ProofsDb ProofsDb2 ProofsDb4 ProofsDb5 ProofsEditor ProofsEditor2 ProofsEditor4 ProofsCalc ProofsCalc4 ProofsCalc6 ProofsCalc7 ProofsCalc8 ProofsCalc9 ProofsCalc10 ProofsCalm ProofsCalm2 ProofsData
  ProofsSession ProofsSession2 ProofsMain ProofsMain2 ProofsRestart ProofsRestart2.
From Coq Require Import String Lia.
Local Open Scope nat_scope.
Local Open Scope list_scope.

Lemma sit_same f i s : sit f i s i = Some s.
Proof. unfold sit. rewrite Nat.eqb_refl. reflexivity. Qed.
Lemma sit_other f i s j : j <> i -> sit f i s j = f j.
Proof. intros N. unfold sit. destruct (Nat.eqb_spec j i); [contradiction|reflexivity]. Qed.

Lemma reopen d faults d' o : program_file d -> sd_open faults d = (d', o) -> d' = d.
Proof.
  intros (w & j & R & Op & <-) E. destruct (reachable_open w j R Op) as [st Rp]. unfold sd_open, sd_call in E. cbn [sd_faults sd_db sd_pos] in E.
  destruct faults as [|[|] fs]; cbn in E.
  - rewrite (open_rep _ _ Rp) in E. injection E as <- _. reflexivity.
  - injection E as <- _. reflexivity.
  - rewrite (open_rep _ _ Rp) in E. injection E as <- _. reflexivity.
Qed.

(** Whatever fails: the file is one the program made, every waiting session is in a good state. *)
Definition sound_desk (k : desk) : Prop := made_file (k_file k) /\
  forall i u e, k_seat k i = Some (u, e) -> (forall sd, u_db u = Some sd -> program_file (k_file k)) /\ (e = Running -> ui_good (with_file (k_file k) u)).
Lemma good_with_file d u : ui_good u -> (forall sd, u_db u = Some sd -> program_file d) -> ui_good (with_file d u).
Proof.
  intros (A & (B1 & B2) & C) P. split; [exact A|]. unfold ui_env, with_file. cbn [u_vars u_db]. split; [split; [exact B1|]|].
  - intros sd E. cbn [e_db] in E. destruct (u_db u) as [sd0|]; [|discriminate E]. injection E as <-. apply file_rows, (P sd0 eq_refl).
  - intros sd E. cbn [e_db] in E. destruct (u_db u) as [sd0|]; [|discriminate E]. injection E as <-. exact (P sd0 eq_refl).
Qed.
Lemma good_with_file' d d' u : ui_good (with_file d u) -> (forall sd, u_db u = Some sd -> program_file d') -> ui_good (with_file d' u).
Proof.
  intros G P. replace (with_file d' u) with (with_file d' (with_file d u)) by (unfold with_file; cbn; destruct (u_db u); reflexivity).
  apply good_with_file; [exact G|]. cbn. destruct (u_db u); intros sd E; [eapply P; reflexivity|discriminate E].
Qed.
Lemma start_db pr tm a db : u_db (fst (fst (interactive_start pr tm a db))) = db.
Proof. unfold interactive_start. rewrite start_line_db. reflexivity. Qed.
Lemma start_good pr tm a db : valid_settings a -> (forall sd, db = Some sd -> program_file (sd_db sd)) -> ui_good (fst (fst (interactive_start pr tm a db))).
Proof.
  intros Ha Hd. apply start_line_good. split; [exact Ha|]. split; [split|].
  - intros m y v E. cbn in E. injection E as <-. discriminate.
  - intros sd E. apply file_rows, Hd, E.
  - intros sd E. apply Hd, E.
Qed.
Lemma file_with u sd d : u_db u = Some sd -> d = sd_db sd -> with_file d u = u.
Proof. destruct u as [a m db h l c]. cbn. intros -> ->. unfold with_file. cbn. destruct sd. reflexivity. Qed.
Lemma nofile_with u d : u_db u = None -> with_file d u = u.
Proof. destruct u as [a m db h l c]. cbn. intros ->. reflexivity. Qed.
Lemma with_file_of d u : with_file (file_of d u) u = u.
Proof. unfold file_of. destruct (u_db u) as [sd|] eqn:E; [eapply file_with; eauto|apply nofile_with, E]. Qed.
Lemma with_file_db d u : u_db (with_file d u) = None <-> u_db u = None.
Proof. cbn. destruct (u_db u); split; congruence. Qed.

Lemma sound_step pr ord x tm mv k : (forall i n, iterates (ord i n)) -> proper_move mv -> sound_desk k -> sound_desk (fst (desk_step pr ord x tm mv k)).
Proof.
  intros Ho Pm (M & S). assert (Oth : forall d, (program_file (k_file k) -> program_file d) -> forall i u e, k_seat k i = Some (u, e) -> (forall sd, u_db u = Some sd -> program_file d) /\ (e = Running -> ui_good (with_file d u))).
  { intros d P i u e E. destruct (S i u e E) as (S1 & S2). assert (P' : forall sd, u_db u = Some sd -> program_file d) by (intros sd X; apply P, (S1 sd X)).
    split; [exact P'|]. intros Er. eapply good_with_file'; [apply S2, Er|exact P']. }
  destruct mv as [i a wanted|i ev]; cbn [desk_step].
  - destruct (k_seat k i) eqn:Sk; [split; assumption|]. cbn [proper_move] in Pm. destruct wanted as [faults|].
    + destruct (sd_open faults (k_file k)) as [file o] eqn:O. destruct (open_made _ _ _ _ M O) as [(_ & -> & ->)|(_ & sd & -> & Ed & Pf & _ & _ & _ & _)]; [split; assumption|].
      pose proof (start_good pr (tm i) a (Some sd) Pm ltac:(intros s [= <-]; rewrite Ed; exact Pf)) as G. pose proof (start_db pr (tm i) a (Some sd)) as D.
      destruct (interactive_start pr (tm i) a (Some sd)) as [[u out] st]. cbn [fst] in *. split; [apply program_made; exact Pf|]. cbn [k_file k_seat].
      intros j u' e E. destruct (Nat.eq_dec j i) as [->|N]; [|rewrite sit_other in E by exact N; apply (Oth file (fun _ => Pf) j u' e E)].
      rewrite sit_same in E. injection E as <- <-. split; [intros _ _; exact Pf|]. intros _. rewrite (file_with u sd) by (auto; congruence). exact G.
    + pose proof (start_good pr (tm i) a None Pm ltac:(discriminate)) as G. pose proof (start_db pr (tm i) a None) as D.
      destruct (interactive_start pr (tm i) a None) as [[u out] st]. cbn [fst] in *. split; [exact M|]. cbn [k_file k_seat].
      intros j u' e E. destruct (Nat.eq_dec j i) as [->|N]; [|rewrite sit_other in E by exact N; apply (S j u' e E)].
      rewrite sit_same in E. injection E as <- <-. split; [intros sd X; congruence|]. intros _. rewrite nofile_with by exact D. exact G.
  - destruct (k_seat k i) as [[u e]|] eqn:Sk; [|split; assumption]. destruct e; try (split; assumption).
    destruct (S i u Running Sk) as (S1 & S2). specialize (S2 eq_refl).
    pose proof (ui_step_good pr (ord i) x (tm i) ev _ (Ho i) S2) as G. pose proof (ui_step_none pr (ord i) x (tm i) ev _ (Ho i) S2) as Nn. rewrite with_file_db in Nn.
    destruct (ui_step pr (ord i) x (tm i) ev (with_file (k_file k) u)) as [[u' out] st]. cbn [fst] in *.
    assert (Pk : program_file (k_file k) -> program_file (file_of (k_file k) u')) by (intros P; unfold file_of; destruct (u_db u') as [sd|] eqn:X; [apply (proj2 (proj2 G)); exact X|exact P]).
    assert (M' : made_file (file_of (k_file k) u')) by (unfold file_of; destruct (u_db u') as [sd|] eqn:X; [apply program_made, (proj2 (proj2 G)); exact X|exact M]).
    split; [exact M'|]. cbn [k_file k_seat]. intros j u2 e E. destruct (Nat.eq_dec j i) as [->|N]; [|rewrite sit_other in E by exact N; apply (Oth _ Pk j u2 e E)].
    rewrite sit_same in E. injection E as <- <-. split; [|intros _; rewrite with_file_of; exact G].
    intros sd X. unfold file_of. rewrite X. apply (proj2 (proj2 G)). exact X.
Qed.
Lemma sound_run pr ord x tm moves : (forall i n, iterates (ord i n)) -> forall k, Forall proper_move moves -> sound_desk k -> sound_desk (desk_run pr ord x tm moves k).
Proof.
  intros Ho. induction moves as [|mv moves IH]; intros k P S; [exact S|]. cbn [desk_run]. inversion P; subst. apply IH; [assumption|]. apply sound_step; assumption.
Qed.
Lemma sound_empty d : made_file d -> sound_desk (empty_desk d).
Proof. intros M. split; [exact M|]. intros i u e [=]. Qed.

(** Working databases: every waiting session is a working one. *)
Definition calm_desk (k : desk) : Prop := sound_desk k /\
  forall i u, k_seat k i = Some (u, Running) -> ui_steady (with_file (k_file k) u) /\ ui_ok u /\ history_of_session (u_inputs u).
Lemma steady_with_file d d' u : ui_steady (with_file d u) -> ui_good (with_file d' u) -> ui_steady (with_file d' u).
Proof.
  intros (_ & (C & X)) G. split; [exact G|]. split.
  - intros sd E. cbn in E. cbn in C. destruct (u_db u) as [sd0|]; [|discriminate E]. injection E as <-. exact (C _ eq_refl).
  - intros E. apply with_file_db in E. apply X. apply with_file_db. exact E.
Qed.
Lemma start_steady pr tm a db : valid_settings a -> working_database db ->
  ui_steady (fst (fst (interactive_start pr tm a db))) /\ harmless (snd (interactive_start pr tm a db)) /\
  ui_ok (fst (fst (interactive_start pr tm a db))) /\ history_of_session (u_inputs (fst (fst (interactive_start pr tm a db)))).
Proof.
  intros Ha Hd.
  assert (K : ui_steady (fst (fst (interactive_start pr tm a db))) /\ harmless (snd (interactive_start pr tm a db))).
  { apply start_line_steady. split.
    - split; [exact Ha|]. split; [split|].
      + intros m y v E. cbn in E. injection E as <-. discriminate.
      + intros sd E. apply file_rows, Hd, E.
      + intros sd E. apply Hd, E.
    - split; [intros sd E; apply (Hd sd E)|]. intros E. cbn [u_db] in E. rewrite E. reflexivity. }
  split; [apply K|]. split; [apply K|]. split; [apply start_line_ok, ih_new_ok|].
  pose proof (interactive_history pr (fun _ l => l) the_executor tm a db []) as H. unfold interactive in H.
  destruct (interactive_start pr tm a db) as [[u out] st]. destruct st; cbn in *; exact H.
Qed.
Lemma calm_step pr ord x tm mv k : (forall i n, iterates (ord i n)) -> proper_move mv -> calm_move mv -> calm_desk k ->
  calm_desk (fst (desk_step pr ord x tm mv k)) /\
  forall i u e, k_seat k i <> Some (u, FailedWith e) -> k_seat (fst (desk_step pr ord x tm mv k)) i = Some (u, FailedWith e) ->
    exists e', e = Runtime e' /\ (display_failure e' \/ e' = paste_error).
Proof.
  intros Ho Pm Cm (Sd & C). pose proof (sound_step pr ord x tm mv k Ho Pm Sd) as Sd'.
  assert (Oth : forall k', sound_desk k' -> forall i u, k_seat k' i = Some (u, Running) -> k_seat k i = Some (u, Running) -> ui_steady (with_file (k_file k') u) /\ ui_ok u /\ history_of_session (u_inputs u)).
  { intros k' (_ & S') i u E' E. destruct (C i u E) as (C1 & C2). split; [|exact C2]. eapply steady_with_file; [exact C1|]. apply (S' i u Running E'). reflexivity. }
  destruct mv as [i a wanted|i ev]; cbn [desk_step] in *.
  - destruct (k_seat k i) eqn:Sk; [split; [split; assumption|intros j0 u0 e0 N0 E0; destruct (N0 E0)]|]. cbn [proper_move] in Pm. destruct wanted as [faults|].
    + cbn [calm_move] in Cm. destruct (sd_open faults (k_file k)) as [file o] eqn:O.
      destruct (open_made _ _ _ _ (proj1 Sd) O) as [(F & _)|(_ & sd & -> & Ed & Pf & _ & _ & Fl & _)]; [destruct (works_head _ Cm F)|].
      assert (Wd : working_database (Some sd)) by (intros s [= <-]; rewrite Ed, Fl; split; [exact Pf|apply faults_tl, Cm]).
      destruct (start_steady pr (tm i) a (Some sd) Pm Wd) as (K1 & K2 & K3 & K4). pose proof (start_db pr (tm i) a (Some sd)) as D.
      destruct (interactive_start pr (tm i) a (Some sd)) as [[u out] st]. cbn [fst snd] in *. split.
      * split; [exact Sd'|]. cbn [k_file k_seat] in *. intros j u' E. destruct (Nat.eq_dec j i) as [->|N].
        -- rewrite sit_same in E. injection E as <- _. rewrite (file_with u sd) by (auto; congruence). auto.
        -- pose proof E as E0. rewrite sit_other in E0 by exact N. exact (Oth _ Sd' j u' E E0).
      * cbn [k_seat]. intros j u' e N E. destruct (Nat.eq_dec j i) as [->|N']; [|rewrite sit_other in E by exact N'; contradiction].
        rewrite sit_same in E. injection E as <- E. destruct st as [| |e'|p]; try discriminate E. injection E as <-. exists e'. split; [reflexivity|]. apply K2. reflexivity.
    + assert (Wd : working_database None) by (intros s [=]).
      destruct (start_steady pr (tm i) a None Pm Wd) as (K1 & K2 & K3 & K4). pose proof (start_db pr (tm i) a None) as D.
      destruct (interactive_start pr (tm i) a None) as [[u out] st]. cbn [fst snd] in *. split.
      * split; [exact Sd'|]. cbn [k_file k_seat] in *. intros j u' E. destruct (Nat.eq_dec j i) as [->|N].
        -- rewrite sit_same in E. injection E as <- _. rewrite nofile_with by exact D. auto.
        -- pose proof E as E0. rewrite sit_other in E0 by exact N. exact (Oth _ Sd' j u' E E0).
      * cbn [k_seat]. intros j u' e N E. destruct (Nat.eq_dec j i) as [->|N']; [|rewrite sit_other in E by exact N'; contradiction].
        rewrite sit_same in E. injection E as <- E. destruct st as [| |e'|p]; try discriminate E. injection E as <-. exists e'. split; [reflexivity|]. apply K2. reflexivity.
  - destruct (k_seat k i) as [[u e]|] eqn:Sk; [|split; [split; assumption|intros j0 u0 e0 N0 E0; destruct (N0 E0)]]. destruct e; try (split; [split; assumption|intros j0 u0 e0 N0 E0; destruct (N0 E0)]).
    destruct (C i u Sk) as (C1 & C2 & C3).
    pose proof (ui_step_steady pr (ord i) x (tm i) ev _ (Ho i) C1) as (U & Hm).
    pose proof (ui_step_ok pr (ord i) x (tm i) ev (with_file (k_file k) u) C2) as Uo.
    pose proof (ui_step_history pr (ord i) x (tm i) ev (with_file (k_file k) u) C3 (proj2 C2)) as Uh.
    destruct (ui_step pr (ord i) x (tm i) ev (with_file (k_file k) u)) as [[u' out] st]. cbn [fst snd] in *. split.
    + split; [exact Sd'|]. cbn [k_file k_seat] in *. intros j u2 E. destruct (Nat.eq_dec j i) as [->|N].
      * rewrite sit_same in E. injection E as <- E. destruct st; try discriminate E. rewrite with_file_of. auto.
      * pose proof E as E0. rewrite sit_other in E0 by exact N. exact (Oth _ Sd' j u2 E E0).
    + cbn [k_seat]. intros j u2 e N E. destruct (Nat.eq_dec j i) as [->|N']; [|rewrite sit_other in E by exact N'; contradiction].
      rewrite sit_same in E. injection E as <- E. destruct st as [| |e'|p]; try discriminate E. injection E as <-. exists e'. split; [reflexivity|]. apply Hm. reflexivity.
Qed.
Lemma calm_empty d : made_file d -> calm_desk (empty_desk d).
Proof. intros M. split; [apply sound_empty, M|]. intros i u [=]. Qed.
Lemma calm_run pr ord x tm moves : (forall i n, iterates (ord i n)) -> forall k, Forall proper_move moves -> Forall calm_move moves -> calm_desk k -> calm_desk (desk_run pr ord x tm moves k).
Proof.
  intros Ho. induction moves as [|mv moves IH]; intros k P Cm S; [exact S|]. cbn [desk_run]. inversion P; subst. inversion Cm; subst. apply IH; [assumption|assumption|]. apply calm_step; assumption.
Qed.
Lemma calm_working k i u : calm_desk k -> sits k i u -> working_session (session_of u).
Proof.
  intros (_ & C) (u0 & E & ->). destruct (C i u0 E) as (((A & B & R) & (N & _)) & _ & H). split; [exact A|]. split; [exact B|]. split; [exact R|]. split; [exact N|exact H].
Qed.
