(** ProofsCause3.v -- why a program stops with an error (C105). *)
From Verif Require Import Base Position Num TokenTypes Errors Token Operations SavedData Variables InputHistory
  SyntaxTree Commands Calculate Editor Sessions Main Io Together Interleave SpecGrammar SpecEval SpecHistory SpecSyntax SpecEditor SpecCalc SpecSession SpecData SpecMain SpecTogether SpecInterleave SpecCalls SpecCause.
From Verif Require Import ProofsNum ProofsDb ProofsDb2 ProofsDb4 ProofsEditor ProofsEditor4 ProofsCalc ProofsCalc3 ProofsCalc8 ProofsCalc10 ProofsCalm ProofsCalm2 ProofsMain ProofsMain2 ProofsTogether ProofsInterleave ProofsInterleave2 ProofsInterleave3 ProofsInterleave4 ProofsInterleave5 ProofsInterleave6 ProofsInterleave8 ProofsInterleave9 ProofsInterleave10 ProofsCalls ProofsCalls2 ProofsCause ProofsCause2.
From Coq Require Import String Lia.
Local Open Scope nat_scope.
Local Open Scope list_scope.

Definition untold (h : input_history) (db : option saved_data) : Prop := db = None -> ih_exhausted h = true.
Definition caused (ev : event) (db : option saved_data) (r : ev_result) : Prop :=
  let '(_, h', db', act) := r in
  untold h' db' /\ (db <> None -> db' <> None) /\ (act = AEnter -> Interleave.enter ev = true) /\
  forall e, act = AFail e -> (e = paste_error /\ ev = EvPaste) \/
    (e = SqliteError /\ (exists mods, ev = EvKey KUp mods) /\ exists sd, db = Some sd /\ hd false (sd_faults sd) = true).
Lemma or_stop_caused ev db0 {A} (r : outcome runtime_error A) l h db k : untold h db -> (db0 <> None -> db <> None) -> (forall e, r <> Err e) ->
  (forall a, r = Ok a -> caused ev db0 (k a)) -> caused ev db0 (or_stop r l h db k).
Proof. intros S D N K. destruct r as [a|e|p]; cbn [or_stop]; [apply K; reflexivity|destruct (N e eq_refl)|split; [exact S|split; [exact D|split; discriminate]]]. Qed.
Lemma untold_same h h' db : ih_exhausted h' = ih_exhausted h -> untold h db -> untold h' db.
Proof. intros E U N. rewrite E. exact (U N). Qed.

Lemma previous_cause sd sd' e : get_prev_input_history sd = (sd', Err e) -> e = SqliteError /\ hd false (sd_faults sd) = true.
Proof.
  unfold get_prev_input_history. destruct (sd_pos sd) as [id|]; [|intros E; apply pair_equal_spec in E as [_ E]; discriminate E].
  unfold sd_call. destruct (sd_faults sd) as [|[|] fs] eqn:F; cbn [hd]; cbv beta iota zeta.
  - destruct (find_hist _ _); intros E; apply pair_equal_spec in E as [_ E]; discriminate E.
  - intros E. apply pair_equal_spec in E as [_ E]. injection E as <-. auto.
  - destruct (find_hist _ _); intros E; apply pair_equal_spec in E as [_ E]; discriminate E.
Qed.
Lemma try_earlier_caused h db h' db' r : untold h db -> try_earlier h db = (h', db', r) ->
  untold h' db' /\ (db <> None -> db' <> None) /\ forall e, r = Err e -> e = SqliteError /\ exists sd, db = Some sd /\ hd false (sd_faults sd) = true.
Proof.
  intros B. unfold try_earlier. destruct (Nat.leb _ _).
  2:{ intros E. apply pair_equal_spec in E as [E <-]. apply pair_equal_spec in E as [<- <-]. split; [exact B|split; [auto|discriminate]]. }
  destruct (ih_exhausted h) eqn:X.
  { intros E. apply pair_equal_spec in E as [E <-]. apply pair_equal_spec in E as [<- <-]. split; [exact B|split; [auto|discriminate]]. }
  destruct db as [sd|]; [|exfalso; specialize (B eq_refl); congruence].
  destruct (get_prev_input_history sd) as [sd' o] eqn:G.
  destruct o as [[t|]|e|p]; intros E; apply pair_equal_spec in E as [E <-]; apply pair_equal_spec in E as [<- <-]; (split; [discriminate|split; [discriminate|]]); try discriminate.
  intros e' [= <-]. destruct (previous_cause _ _ _ G) as (-> & Hd). eauto.
Qed.
Lemma handle_event_caused ev l h db : untold h db -> caused ev db (handle_event ev l h db).
Proof.
  intros S. assert (Keep : forall l' act, (forall e, act <> AFail e) -> (act = AEnter -> Interleave.enter ev = true) -> caused ev db (l', h, db, act)) by (intros l' act N K; split; [exact S|split; [auto|split; [exact K|intros e ->; destruct (N e eq_refl)]]]).
  destruct ev as [code mods| |width|]; try (apply Keep; discriminate); [|split; [exact S|split; [auto|split; [discriminate|intros e [= <-]; left; auto]]]].
  cbn [handle_event]. destruct code as [c| | | | | | | | | |]; try (apply Keep; discriminate || reflexivity).
  - unfold handle_char. destruct (negb (is_ascii c)); [apply Keep; discriminate|].
    destruct (N.eqb mods CONTROL && (N.eqb c 100 || N.eqb c 122 || N.eqb c 99)); [apply Keep; discriminate|].
    assert (Ins : forall c', caused (EvKey (KChar c) mods) db (or_stop (insert_char h (l_cursor l) c') l h db (fun h' => (with_cursor l (l_cursor l + 1), h', db, ARedraw)))).
    { intros c'. destruct (insert_cases (E:=runtime_error) h (l_cursor l) c' _ eq_refl) as (N & K). apply or_stop_caused; [exact S|auto|exact N|].
      intros h' E. split; [eapply untold_same; [apply K; exact E|exact S]|split; [auto|split; discriminate]]. }
    destruct (N.eqb mods CONTROL && (N.eqb c 109 || N.eqb c 110)).
    { apply or_stop_caused; [exact S|auto|apply current_steady|]. intros t _. apply or_stop_caused; [exact S|auto|intros e; apply paren_jump_no_err|].
      intros [q|] _; apply Keep; discriminate. }
    destruct (N.eqb mods SHIFT); [apply Ins|]. destruct (negb (N.eqb mods 0)); [apply Keep; discriminate|apply Ins].
  - destruct (Nat.eqb (l_cursor l) 0); [apply Keep; discriminate|]. destruct (remove_cases (E:=runtime_error) h (l_cursor l - 1) _ eq_refl) as (N & K).
    apply or_stop_caused; [exact S|auto|exact N|]. intros h' E. split; [eapply untold_same; [apply K; exact E|exact S]|split; [auto|split; discriminate]].
  - apply or_stop_caused; [exact S|auto|apply current_steady|]. intros t _. destruct (Nat.leb _ _); [apply Keep; discriminate|].
    destruct (remove_cases (E:=runtime_error) h (l_cursor l) _ eq_refl) as (N & K).
    apply or_stop_caused; [exact S|auto|exact N|]. intros h' E. split; [eapply untold_same; [apply K; exact E|exact S]|split; [auto|split; discriminate]].
  - destruct (try_earlier h db) as [[h' db'] r] eqn:E. destruct (try_earlier_caused _ _ _ _ _ S E) as (S' & D & N).
    destruct r as [[|]|e|p].
    + apply or_stop_caused; [exact S'|exact D|apply current_steady|]. intros t _. split; [exact S'|split; [exact D|split; discriminate]].
    + split; [exact S'|split; [exact D|split; discriminate]].
    + split; [exact S'|split; [exact D|split; [discriminate|]]]. intros e0 [= <-]. right. destruct (N e eq_refl) as (-> & X). eauto.
    + split; [exact S'|split; [exact D|split; discriminate]].
  - destruct (try_later h) as [h' b] eqn:E. assert (S' : untold h' db).
    { eapply untold_same; [|exact S]. unfold try_later in E. destruct (ih_index h); apply pair_equal_spec in E as [<- _]; reflexivity. }
    destruct b; [|split; [exact S'|split; [auto|split; discriminate]]].
    apply or_stop_caused; [exact S'|auto|apply current_steady|]. intros t _. split; [exact S'|split; [auto|split; discriminate]].
  - destruct (move_distance mods); apply Keep; discriminate.
  - destruct (move_distance mods); [|apply Keep; discriminate]. apply or_stop_caused; [exact S|auto|apply current_steady|]. intros t _. apply Keep; discriminate.
  - apply or_stop_caused; [exact S|auto|apply current_steady|]. intros t _. apply Keep; discriminate.
Qed.

(** Only the display can fail elsewhere. *)
Definition shows (st : status) : Prop := forall e, st = Failed e -> display_failure e.
Lemma start_shows pr tm u : u_db (fst (fst (start_line pr tm u))) = u_db u /\ ih_exhausted (u_inputs (fst (fst (start_line pr tm u)))) = ih_exhausted (u_inputs u) /\ shows (snd (start_line pr tm u)).
Proof.
  unfold start_line. cbv zeta. destruct (display _ _ _ _ _) as [[l' o]|e|p] eqn:D; cbn [fst snd u_db u_inputs]; (split; [reflexivity|split; [reflexivity|]]); intros e0 E; try discriminate E.
  injection E as <-. eapply display_errors, D.
Qed.
Lemma render_no_err r e : render r <> Err e.
Proof. destruct r as [s|[m|y]|p]; discriminate. Qed.
Lemma finish_shows pr ord x tm u : shows (snd (finish_line pr ord x tm u)).
Proof.
  unfold finish_line. cbv zeta. destruct (display _ _ _ _ _) as [[l1 out1]|e|p] eqn:D; [|intros e0 [= <-]; eapply display_errors, D|intros e0; discriminate].
  destruct (current_line (u_inputs u)) as [input|e|p] eqn:L; [|destruct (current_no_err _ _ L)|intros e; discriminate].
  destruct (calculate _ _ _ _ _) as [se' r]. destruct (render r) as [text|e|p] eqn:R; [|destruct (render_no_err _ _ R)|intros e; discriminate].
  match goal with |- context [start_line pr tm ?u0] => pose proof (proj2 (proj2 (start_shows pr tm u0))) as K; destruct (start_line pr tm u0) as [[u2 o2] st] end. exact K.
Qed.
Lemma ui_step_caused pr ord x tm ev u : untold (u_inputs u) (u_db u) -> (Interleave.enter ev = true -> u_db u = None) ->
  (u_db u <> None -> u_db (fst (fst (ui_step pr ord x tm ev u))) <> None) /\
  forall e, snd (ui_step pr ord x tm ev u) = Failed e -> display_failure e \/ (e = paste_error /\ ev = EvPaste) \/
    (e = SqliteError /\ (exists mods, ev = EvKey KUp mods) /\ exists sd, u_db u = Some sd /\ hd false (sd_faults sd) = true).
Proof.
  intros U N. unfold ui_step. pose proof (handle_event_caused ev (u_line u) (u_inputs u) (u_db u) U) as K. destruct (handle_event _ _ _ _) as [[[l' h'] db'] act].
  destruct K as (U' & D & En & Fa). destruct act; try (split; [exact D|intros e0; discriminate]).
  - destruct (display _ _ _ _ _) as [[l'' out]|e|p] eqn:Di; (split; [exact D|]); intros e0 E; try discriminate E. injection E as <-. left. eapply display_errors, Di.
  - split; [intros X; destruct (X (N (En eq_refl)))|]. intros e E. left. eapply finish_shows, E.
  - split; [exact D|]. intros e0 [= <-]. destruct (Fa _ eq_refl) as [X|X]; auto.
Qed.

(** ** Rooms *)
Section Runs.
  Context (pr : profile) (ord : nat -> nat -> list str -> list str) (x : executor) (tm : nat -> terminal).
  Context (Ho : forall i n, iterates (ord i n)).
  Notation rstep := (room_step pr ord x tm).
  Notation rrun := (room_run pr ord x tm).
  Definition lone_seat (s : seat) : Prop := match s with Resting u Running => untold (u_inputs u) (u_db u) | _ => True end.
  Definition lone_room (w : room) : Prop := forall i s, r_seat w i = Some s -> lone_seat s.
  Definition stop_cause (i : nat) (tn : turn) (w : room) (e : main_error) : Prop :=
    exists re, e = Runtime re /\ (display_failure re \/ (re = paste_error /\ tn = Receives i EvPaste) \/
      (re = SqliteError /\ (exists mods, tn = Receives i (EvKey KUp mods)) /\ refused i w)).
  Lemma untold_some h db : db <> None -> untold h db.
  Proof. intros N X. destruct (N X). Qed.
  Lemma answer_shows t u ans : u_db u <> None -> lone_seat (fst (answer_line pr t u ans)) /\ forall u' e, fst (answer_line pr t u ans) = Resting u' (FailedWith e) -> exists re, e = Runtime re /\ display_failure re.
  Proof.
    intros N. destruct ans as [[[a' h'] vars'] r]. unfold answer_line. destruct (render r) as [text|e|p] eqn:R; [|destruct (render_no_err _ _ R)|split; [exact Logic.I|intros u' e [=]]].
    match goal with |- context [start_line pr t ?u0] => pose proof (start_shows pr t u0) as (K1 & _ & K3); destruct (start_line pr t u0) as [[u2 o2] st] end. cbn [fst snd u_db] in *.
    split; [destruct st; cbn; [apply untold_some; congruence|exact Logic.I..]|]. intros u' e E. destruct st; try discriminate E. injection E as <- <-. eauto.
  Qed.
  Lemma go_shows t u m : u_db u <> None -> lone_seat (fst (go_on pr t u m)) /\ forall u' e, fst (go_on pr t u m) = Resting u' (FailedWith e) -> exists re, e = Runtime re /\ display_failure re.
  Proof. intros N. destruct m as [ans|c k]; [exact (answer_shows t u ans N)|]. split; [exact Logic.I|intros u' e [=]]. Qed.
  Lemma begin_shows t o u : u_db u <> None -> lone_seat (fst (begin_line pr o x t u)) /\ forall u' e, fst (begin_line pr o x t u) = Resting u' (FailedWith e) -> exists re, e = Runtime re /\ display_failure re.
  Proof.
    intros N. unfold begin_line. destruct (display _ _ _ _ _) as [[l1 out1]|e|p] eqn:D; cbn [fst].
    - destruct (current_line (u_inputs u)) as [input|e|p] eqn:L; cbn [fst]; [|destruct (current_no_err _ _ L)|split; [exact Logic.I|intros u' e [=]]].
      pose proof (go_shows t u (line_io pr (o (u_count u)) x input (u_args u) (u_inputs u) (u_vars u)) N) as K. destruct (go_on _ _ _ _). exact K.
    - split; [exact Logic.I|]. intros u' e0 E. cbn in E. injection E as _ <-. exists e. split; [reflexivity|]. eapply display_errors, D.
    - split; [exact Logic.I|intros u' e [=]].
  Qed.
  Lemma start_lone t a db : lone_seat (Resting (fst (fst (interactive_start pr t a db))) (ending_of (snd (interactive_start pr t a db)))) /\
    forall u' e, Resting (fst (fst (interactive_start pr t a db))) (ending_of (snd (interactive_start pr t a db))) = Resting u' (FailedWith e) -> exists re, e = Runtime re /\ display_failure re.
  Proof.
    unfold interactive_start. match goal with |- context [start_line pr t ?u0] => pose proof (start_shows pr t u0) as (K1 & K2 & K3); destruct (start_line pr t u0) as [[u2 o2] st] end. cbn [fst snd u_db u_inputs] in *.
    split; [destruct st; cbn; try exact Logic.I|].
    - intros X. rewrite K2, <- K1, X. reflexivity.
    - intros u' e E. destruct st; try discriminate E. injection E as <- <-. eauto.
  Qed.
  Lemma stops w tn : sound_room w -> lone_room w -> proper_turn tn ->
    lone_room (fst (rstep tn w)) /\
    forall i u e, r_seat w i <> Some (Resting u (FailedWith e)) -> r_seat (fst (rstep tn w)) i = Some (Resting u (FailedWith e)) -> stop_cause i tn w e.
  Proof.
    intros Sd Ln Pp.
    assert (Same : lone_room w /\ forall i u e, r_seat w i <> Some (Resting u (FailedWith e)) -> r_seat w i = Some (Resting u (FailedWith e)) -> stop_cause i tn w e) by (split; [exact Ln|intros; contradiction]).
    assert (Put : forall file i s, lone_seat s -> (forall u e, s = Resting u (FailedWith e) -> stop_cause i tn w e) ->
      lone_room (mkRoom file (seated (r_seat w) i s)) /\
      forall j u e, r_seat w j <> Some (Resting u (FailedWith e)) -> r_seat (mkRoom file (seated (r_seat w) i s)) j = Some (Resting u (FailedWith e)) -> stop_cause j tn w e).
    { intros file i s S2 S3. split; cbn [r_seat].
      - intros j s' E. cbn [r_seat] in E. destruct (Nat.eq_dec j i) as [->|N]; [rewrite seated_same in E; injection E as <-; exact S2|]. rewrite seated_other in E by exact N. eapply Ln, E.
      - intros j u e N E. destruct (Nat.eq_dec j i) as [->|N']; [rewrite seated_same in E; injection E as ->; eapply S3; reflexivity|]. rewrite seated_other in E by exact N'. contradiction. }
    assert (Dis : forall i e, (exists re, e = Runtime re /\ display_failure re) -> stop_cause i tn w e) by (intros i e (re & -> & H); exists re; auto).
    destruct tn as [i a wanted|i ev|i]; cbn [room_step] in *.
    - destruct (r_seat w i) eqn:Sk; [exact Same|]. destruct wanted as [faults|].
      + destruct (sd_open faults (r_file w)) as [file [sd|e|p]]; [|split; [exact Ln|intros; contradiction]..].
        pose proof (start_lone (tm i) a (Some sd)) as (K1 & K2). destruct (interactive_start pr (tm i) a (Some sd)) as [[u out] st]. cbn [fst snd] in *. apply Put; [exact K1|]. intros u' e E. apply Dis. exact (K2 _ _ E).
      + pose proof (start_lone (tm i) a None) as (K1 & K2). destruct (interactive_start pr (tm i) a None) as [[u out] st]. cbn [fst snd] in *. apply Put; [exact K1|]. intros u' e E. apply Dis. exact (K2 _ _ E).
    - destruct (r_seat w i) as [[u e|u t]|] eqn:Sk; [|exact Same..]. destruct e; try exact Same.
      destruct (proj2 Sd i _ Sk) as (P1 & G). specialize (G eq_refl). pose proof (Ln i _ Sk) as U. cbn [lone_seat] in U.
      set (v := with_file (r_file w) u) in *.
      assert (Uv : untold (u_inputs v) (u_db v)) by (intros X; apply with_file_db in X; exact (U X)).
      assert (Ui : (Interleave.enter ev = true -> u_db u = None) ->
        lone_room (fst (let '(u', out, st) := ui_step pr (ord i) x (tm i) ev v in (mkRoom (file_of (r_file w) u') (seated (r_seat w) i (Resting u' (ending_of st))), out))) /\
        forall j u0 e, r_seat w j <> Some (Resting u0 (FailedWith e)) -> r_seat (fst (let '(u', out, st) := ui_step pr (ord i) x (tm i) ev v in
              (mkRoom (file_of (r_file w) u') (seated (r_seat w) i (Resting u' (ending_of st))), out))) j = Some (Resting u0 (FailedWith e)) -> stop_cause j (Receives i ev) w e).
      { intros En. destruct (ui_step_caused pr (ord i) x (tm i) ev v Uv) as (Db & Fa); [intros X; apply with_file_db, En, X|].
        assert (Ln' : untold (u_inputs (fst (fst (ui_step pr (ord i) x (tm i) ev v)))) (u_db (fst (fst (ui_step pr (ord i) x (tm i) ev v))))).
        { intros X. assert (Y : u_db v = None) by (destruct (u_db v); [destruct (Db ltac:(discriminate) X)|reflexivity]).
          assert (St : ui_steady v) by (split; [exact G|split; [rewrite Y; intros s; discriminate|intros _; exact (Uv Y)]]).
          destruct (ui_step_steady pr (ord i) x (tm i) ev v (Ho i) St) as ((_ & _ & K) & _). exact (K X). }
        destruct (ui_step _ _ _ _ _ _) as [[u' out] st]. cbn [fst snd] in *. apply Put; [destruct st; [exact Ln'|exact Logic.I..]|].
        intros u2 e E. destruct st as [| |e1|]; try discriminate E. injection E as _ <-. exists e1. split; [reflexivity|].
        destruct (Fa e1 eq_refl) as [H|[(-> & ->)|(-> & (mods & ->) & sd & Ed & Hd)]]; [left; exact H|right; left; auto|]. right. right. split; [reflexivity|]. split; [eauto|].
        unfold v, with_file, with_db in Ed. cbn [u_db] in Ed. destruct (u_db u) as [s0|] eqn:E0; [|discriminate Ed]. injection Ed as <-. exists u, s0. split; [left; exact Sk|]. split; [exact E0|exact Hd]. }
      destruct (Interleave.enter ev); [|apply Ui; discriminate]. destruct (u_db u) as [sd|] eqn:Ed; [|apply Ui; reflexivity]. clear Ui.
      assert (Nv : u_db v <> None) by (intros X; apply with_file_db in X; congruence).
      pose proof (begin_shows (tm i) (ord i) v Nv) as (K1 & K2). destruct (begin_line _ _ _ _ _) as [s out]. cbn [fst] in *. apply Put; [exact K1|]. intros u' e E. apply Dis, (K2 u' e E).
    - destruct (r_seat w i) as [[u e|u t]|] eqn:Sk; [exact Same| |exact Same]. destruct t as [ans|c k]; [exact Same|]. destruct (u_db u) as [sd|] eqn:Ed; [|exact Same].
      destruct (perform _ _) as [sd' r]. pose proof (go_shows (tm i) (with_db u (Some sd')) (k r)) as K. specialize (K ltac:(discriminate)). destruct K as (K1 & K2). destruct (go_on _ _ _ _) as [s out]. cbn [fst] in *.
      apply Put; [exact K1|]. intros u' e E. apply Dis, (K2 u' e E).
  Qed.
  (** Whoever has stopped with an error stopped at some turn, for a reason. *)
  Lemma stopped_because turns : forall w, sound_room w -> lone_room w -> Forall proper_turn turns -> forall i u e,
    r_seat (rrun turns w) i = Some (Resting u (FailedWith e)) ->
    r_seat w i = Some (Resting u (FailedWith e)) \/
    exists first tn rest, turns = first ++ tn :: rest /\ (forall u0 e0, r_seat (rrun first w) i = Some (Resting u0 e0) -> e0 = Running) /\ stop_cause i tn (rrun first w) e.
  Proof.
    induction turns as [|tn turns IH]; intros w Sd Ln Pp i u e E; [left; exact E|]. inversion Pp; subst. cbn [room_run] in E.
    destruct (stops w tn Sd Ln H1) as (Ln' & St). destruct (IH _ (sound_turn pr ord x tm tn w Ho H1 Sd) Ln' H2 i u e E) as [S1|(first & tn' & rest & -> & Ru & C)].
    - destruct (r_seat w i) as [[u0 e0|u0 t0]|] eqn:Sk.
      + destruct e0 as [|e0|p0|];
          try (rewrite (ended_stays pr ord x tm i u0 _ tn w Sk) in S1 by discriminate; left; exact S1).
        right. exists [], tn, turns. split; [reflexivity|]. cbn [room_run]. split; [intros u1 e1 E1; congruence|]. apply (St i u e); [rewrite Sk; discriminate|exact S1].
      + right. exists [], tn, turns. split; [reflexivity|]. cbn [room_run]. split; [intros u1 e1 E1; congruence|]. apply (St i u e); [rewrite Sk; discriminate|exact S1].
      + right. exists [], tn, turns. split; [reflexivity|]. cbn [room_run]. split; [intros u1 e1 E1; congruence|]. apply (St i u e); [rewrite Sk; discriminate|exact S1].
    - right. exists (tn :: first), tn', rest. split; [reflexivity|]. cbn [room_run]. auto.
  Qed.
End Runs.
