(** ProofsInterleave5.v -- interleaved calls (C89-C91): working databases; the calls of one line within a run. *)
From Verif Require Import Base Position Num TokenTypes Errors Token Operations SavedData Variables InputHistory
  SyntaxTree Commands Calculate Editor Sessions Main Io Together Interleave SpecGrammar SpecEval SpecHistory SpecSyntax SpecEditor SpecCalc SpecSession SpecData SpecMain SpecTogether SpecInterleave.
From Verif Require Import ProofsNum ProofsEval ProofsDb ProofsDb2 ProofsDb4 ProofsEditor4 ProofsCalc ProofsCalc2 ProofsCalc3 ProofsCalc4 ProofsCalc5 ProofsCalc6 ProofsCalc7 ProofsCalc8 ProofsCalc9 ProofsCalc10 ProofsCalm ProofsCalm2 ProofsMain ProofsMain2 ProofsTogether ProofsInterleave ProofsInterleave2 ProofsInterleave3 ProofsInterleave4.
From Coq Require Import String Lia.
Local Open Scope nat_scope.
Local Open Scope list_scope.

(** A call on a working database is as specified. *)
Lemma perform_well c d pos faults sd' r : program_file d -> ~ In true faults -> fair c -> perform c (mkSD d pos faults) = (sd', r) ->
  well (mkMoment d c r (sd_db sd')) /\ calm sd'.
Proof.
  intros P F (No & Np & Q) E. destruct (file_store d P) as (st & R). destruct (call_spec c d st R Q No Np) as (S1 & S2).
  assert (K : forall A (m : tx A) (f : A -> reply) sd1 o, sd_call m (mkSD d pos faults) = (sd1, o) -> calm sd1 /\ tx_reply (tx_bind m (fun v => tx_ret (f v)) d) d = (sd_db sd1, reply_of f o)).
  { intros A m f sd1 o X. destruct (calm_call m _ _ _ (F : calm (mkSD d pos faults)) X) as (C & Y). split; [exact C|]. cbn [sd_db] in Y. unfold tx_bind, tx_ret.
    destruct (m d) as [[v d']|e|p]; destruct Y as (-> & ->); reflexivity. }
  assert (Z : calm sd' /\ tx_reply (tx_of c d) d = (sd_db sd', r)).
  { destruct c; try congruence; cbn [perform] in E; cbv zeta in E; apply pair_equal_spec in E as [<- <-];
    match goal with |- context [fst ?t] => destruct t as [sd1 o] eqn:X end; cbn [fst snd];
    match type of X with ?h = _ => let h' := eval hnf in h in idtac end.
    - exact (K _ (tx_add text) RId _ _ X).
    - exact (K _ (tx_set_variable name value id) (fun _ => RDone) _ _ X).
    - exact (K _ (tx_touch_variable name id) (fun _ => RDone) _ _ X).
    - exact (K _ (tx_get_variable name) RValue _ _ X).
    - exact (K _ (tx_clear_variable name) (fun _ => RDone) _ _ X).
    - exact (K _ tx_get_max RMax _ _ X).
    - exact (K _ (tx_set_max size) (fun _ => RDone) _ _ X). }
  destruct Z as (C & Z). rewrite Z in S1, S2. cbn [fst snd] in S1, S2. split; [|exact C]. split; [exact P|]. exists st. auto.
Qed.

(** ** Working databases *)
Definition calm_seat (s : seat) : Prop :=
  match s with
  | Resting u e => e = Running -> steady (u_inputs u) (u_db u)
  | Working u t => steady (u_inputs u) (u_db u)
  end.
Definition calm_room (w : room) : Prop := sound_room w /\ forall i s, r_seat w i = Some s -> calm_seat s.
Lemma steady_file d h u : steady h (u_db (with_file d u)) <-> steady h (u_db u).
Proof.
  unfold steady, calm_odb, calm. cbn. destruct (u_db u) as [sd|]; [|reflexivity]. split; (intros (A & B); split; [intros s [= <-]; exact (A _ eq_refl)|discriminate]).
Qed.
Definition mild (e : main_error) : Prop := exists e', e = Runtime e' /\ (display_failure e' \/ e' = paste_error).
Lemma answer_calm pr tm u ans : steady (u_inputs u) (u_db u) -> good_answer (u_inputs u) ans -> (forall sd, u_db u = Some sd -> program_file (sd_db sd)) ->
  calm_seat (fst (answer_line pr tm u ans)) /\
  forall u' e, fst (answer_line pr tm u ans) = Resting u' (FailedWith e) -> mild e.
Proof.
  intros St G P. destruct ans as [[[a' h'] vars'] r]. destruct G as (A & V & H). unfold answer_line.
  assert (S' : steady h' (u_db u)) by (destruct H as [->|(line & _ & ->)]; exact St).
  destruct (render r) as [text|e|p] eqn:R; cbn [fst calm_seat ending_of].
  - set (u0 := mkUi a' vars' (u_db u) h' (u_line u) (S (u_count u))).
    assert (U : ui_steady u0).
    { split; [|exact S']. split; [exact A|]. split; [split|].
      - intros m y v E. cbn in E. injection E as <-. apply V.
      - intros sd E. cbn in E. apply file_rows, P, E.
      - intros sd E. cbn in E. apply P, E. }
    destruct (start_line_steady pr tm u0 U) as (U' & Hm). destruct (start_line pr tm u0) as [[u2 out] st]. cbn [fst snd] in *. cbn [fst calm_seat]. split; [intros _; apply U'|].
    intros u' e E. injection E as _ E. destruct st as [| |e'|p]; try discriminate E. injection E as <-. exists e'. split; [reflexivity|]. apply Hm. reflexivity.
  - split; [discriminate|]. destruct r as [s|[m|x]|p]; discriminate R.
  - split; [discriminate|]. intros u' e [=].
Qed.
Lemma go_on_calm pr tm u t : steady (u_inputs u) (u_db u) -> polite (good_answer (u_inputs u)) t -> (forall sd, u_db u = Some sd -> program_file (sd_db sd)) ->
  calm_seat (fst (go_on pr tm u t)) /\
  forall u' e, fst (go_on pr tm u t) = Resting u' (FailedWith e) -> mild e.
Proof. intros St G P. destruct t as [ans|c k]; cbn [go_on]; [apply answer_calm; assumption|]. cbn. split; [exact St|discriminate]. Qed.
Lemma calm_turned pr ord x tm tn w : (forall i n, iterates (ord i n)) -> proper_turn tn -> calm_turn tn -> calm_room w ->
  calm_room (fst (room_step pr ord x tm tn w)) /\
  forall i u e, r_seat w i <> Some (Resting u (FailedWith e)) -> r_seat (fst (room_step pr ord x tm tn w)) i = Some (Resting u (FailedWith e)) -> mild e.
Proof.
  intros Ho Pm Cm (Sd & C). pose proof (sound_turn pr ord x tm tn w Ho Pm Sd) as Sd'.
  assert (Same : calm_room w /\ forall i u e, r_seat w i <> Some (Resting u (FailedWith e)) -> r_seat w i = Some (Resting u (FailedWith e)) -> mild e) by (split; [split; assumption|intros; contradiction]).
  assert (Put : forall file i s, sound_room (mkRoom file (seated (r_seat w) i s)) -> calm_seat s -> (forall u e, s = Resting u (FailedWith e) -> mild e) ->
     calm_room (mkRoom file (seated (r_seat w) i s)) /\
     forall j u e, r_seat w j <> Some (Resting u (FailedWith e)) -> r_seat (mkRoom file (seated (r_seat w) i s)) j = Some (Resting u (FailedWith e)) -> mild e).
  { intros file i s S1 S2 S3. split; [split; [exact S1|]|]; cbn [r_seat].
    - intros j s' E. destruct (Nat.eq_dec j i) as [->|N]; [rewrite seated_same in E; injection E as <-; exact S2|]. rewrite seated_other in E by exact N. eapply C, E.
    - intros j u e N E. destruct (Nat.eq_dec j i) as [->|N']; [rewrite seated_same in E; injection E as ->; eapply S3; reflexivity|]. rewrite seated_other in E by exact N'. contradiction. }
  assert (Hms : forall st u u' e, harmless st -> Resting u (ending_of st) = Resting u' (FailedWith e) -> mild e).
  { intros st u u' e H E. injection E as _ E. destruct st as [| |e'|p]; try discriminate E. injection E as <-. exists e'. split; [reflexivity|]. apply H. reflexivity. }
  destruct tn as [i a wanted|i ev|i]; cbn [room_step] in *.
  - destruct (r_seat w i) eqn:Sk; [exact Same|]. cbn [proper_turn] in Pm. destruct wanted as [faults|].
    + cbn [calm_turn] in Cm. destruct (sd_open faults (r_file w)) as [file o] eqn:O.
      destruct (open_made _ _ _ _ (proj1 Sd) O) as [(F & _)|(_ & sd & -> & Ed & Pf & _ & _ & Fl & _)]; [destruct (works_head _ Cm F)|].
      assert (Wd : working_database (Some sd)) by (intros s [= <-]; rewrite Ed, Fl; split; [exact Pf|apply faults_tl, Cm]).
      destruct (start_steady pr (tm i) a (Some sd) Pm Wd) as (K1 & K2 & _).
      destruct (interactive_start pr (tm i) a (Some sd)) as [[u out] st]. cbn [fst snd] in *. apply Put; [exact Sd'|intros _; apply K1|intros u' e; apply Hms, K2].
    + assert (Wd : working_database None) by (intros s [=]).
      destruct (start_steady pr (tm i) a None Pm Wd) as (K1 & K2 & _).
      destruct (interactive_start pr (tm i) a None) as [[u out] st]. cbn [fst snd] in *. apply Put; [exact Sd'|intros _; apply K1|intros u' e; apply Hms, K2].
  - destruct (r_seat w i) as [[u e|u t]|] eqn:Sk; [|exact Same..]. destruct e; try exact Same.
    destruct (proj2 Sd i _ Sk) as (P1 & G). specialize (G eq_refl). pose proof (C i _ Sk eq_refl) as St. cbn in St.
    assert (U : ui_steady (with_file (r_file w) u)) by (split; [exact G|apply steady_file; exact St]).
    assert (Ui : sound_room (fst (let '(u', out, st) := ui_step pr (ord i) x (tm i) ev (with_file (r_file w) u) in
              (mkRoom (file_of (r_file w) u') (seated (r_seat w) i (Resting u' (ending_of st))), out))) ->
       calm_room (fst (let '(u', out, st) := ui_step pr (ord i) x (tm i) ev (with_file (r_file w) u) in
              (mkRoom (file_of (r_file w) u') (seated (r_seat w) i (Resting u' (ending_of st))), out))) /\
       forall j u0 e, r_seat w j <> Some (Resting u0 (FailedWith e)) -> r_seat (fst (let '(u', out, st) := ui_step pr (ord i) x (tm i) ev (with_file (r_file w) u) in
              (mkRoom (file_of (r_file w) u') (seated (r_seat w) i (Resting u' (ending_of st))), out))) j = Some (Resting u0 (FailedWith e)) -> mild e).
    { destruct (ui_step_steady pr (ord i) x (tm i) ev _ (Ho i) U) as (U' & Hm). destruct (ui_step _ _ _ _ _ _) as [[u' out] st]. cbn [fst snd] in *. intros S1.
      apply Put; [exact S1|intros _; apply U'|intros u2 e2; apply Hms, Hm]. }
    destruct (enter ev); [|apply Ui, Sd']. destruct (u_db u) as [sd|] eqn:Ed; [|apply Ui, Sd']. clear Ui.
    assert (Sb : calm_seat (fst (begin_line pr (ord i) x (tm i) (with_file (r_file w) u))) /\
                 forall u' e, fst (begin_line pr (ord i) x (tm i) (with_file (r_file w) u)) = Resting u' (FailedWith e) -> mild e).
    { set (v := with_file (r_file w) u) in *. destruct (parts_of_good v G) as (A & V).
      unfold begin_line. destruct (display _ _ _ _ _) as [[l1 out1]|e|p] eqn:D; cbn [fst].
      - destruct (current_line (u_inputs v)) as [input|e|p] eqn:L; cbn [fst]; [|destruct (current_no_err _ _ L)|split; [discriminate|intros u' e' [=]]].
        match goal with |- context [go_on pr (tm i) v ?t] => pose proof (go_on_calm pr (tm i) v t) as K end. destruct (go_on pr (tm i) v _) as [s out]. cbn [fst] in *. apply K.
        + apply U.
        + apply polite_line; assumption.
        + intros s0 E. unfold v in E. cbn in E. rewrite Ed in E. injection E as <-. exact (P1 sd eq_refl).
      - split; [discriminate|]. intros u' e' E. injection E as _ E. subst e'. exists e. split; [reflexivity|]. left. eapply display_errors, D.
      - split; [discriminate|intros u' e' [=]]. }
    destruct (begin_line _ _ _ _ _) as [s out]. cbn [fst] in *. apply Put; [exact Sd'|apply Sb..].
  - destruct (r_seat w i) as [[u e|u t]|] eqn:Sk; [exact Same| |exact Same]. destruct (proj2 Sd i _ Sk) as (N & P & A & V & Po). pose proof (C i _ Sk) as St. cbn in St.
    destruct t as [ans|c k]; [exact Same|]. destruct (u_db u) as [sd|] eqn:Ed; [|destruct N; reflexivity]. destruct Po as (Fc & K).
    destruct (perform c (mkSD (r_file w) (sd_pos sd) (sd_faults sd))) as [sd' r] eqn:Pe.
    destruct (perform_well _ _ _ _ _ _ P (proj1 St sd eq_refl) Fc Pe) as (W & Cs). pose proof (perform_file c (mkSD (r_file w) (sd_pos sd) (sd_faults sd)) P Fc) as P'. rewrite Pe in P'. cbn [fst] in P'.
    pose proof (perform_readable c (mkSD (r_file w) (sd_pos sd) (sd_faults sd)) P) as R. rewrite Pe in R. cbn [snd] in R.
    pose proof (go_on_calm pr (tm i) (with_db u (Some sd')) (k r)) as Gc. destruct (go_on _ _ _ _) as [s out]. cbn [fst] in *.
    assert (X : calm_seat s /\ forall u' e, s = Resting u' (FailedWith e) -> mild e).
    { apply Gc; [split; [intros s0 [= <-]; exact Cs|discriminate]|apply K, R|intros s0 [= <-]; exact P']. }
    apply Put; [exact Sd'|apply X..].
Qed.
Lemma calm_turns pr ord x tm turns : (forall i n, iterates (ord i n)) -> forall w, Forall proper_turn turns -> Forall calm_turn turns -> calm_room w -> calm_room (room_run pr ord x tm turns w).
Proof.
  intros Ho. induction turns as [|tn turns IH]; intros w P Cm S; [exact S|]. cbn [room_run]. inversion P; subst. inversion Cm; subst. apply IH; [assumption..|]. apply calm_turned; assumption.
Qed.
Lemma calm_nobody d : made_file d -> calm_room (empty_room d).
Proof. intros M. split; [apply sound_nobody, M|]. intros i s [=]. Qed.
