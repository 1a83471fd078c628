(** ProofsCause2.v -- why a line ends with a runtime error, and why a program stops with one (C105): runs. *)
From Verif Require Import Base Position Num TokenTypes Errors Token Operations SavedData Variables InputHistory
  SyntaxTree Commands Calculate Editor Sessions Main Io Together Interleave SpecGrammar SpecEval SpecHistory SpecSyntax SpecEditor SpecCalc SpecSession SpecData SpecMain SpecTogether SpecInterleave SpecCalls SpecCause.
From Verif Require Import ProofsNum ProofsDb ProofsDb2 ProofsDb4 ProofsEditor4 ProofsCalc ProofsCalc3 ProofsCalm ProofsCalm2 ProofsMain ProofsMain2 ProofsTogether ProofsInterleave ProofsInterleave2 ProofsInterleave3 ProofsInterleave4 ProofsInterleave5 ProofsInterleave6 ProofsInterleave8 ProofsInterleave9 ProofsInterleave10 ProofsCalls ProofsCalls2 ProofsCause.
From Coq Require Import String Lia.
Local Open Scope nat_scope.
Local Open Scope list_scope.

(** ** One call *)
Lemma perform_refused c sd : fair c -> hd false (sd_faults sd) = true -> snd (perform c sd) = RError SqliteError.
Proof.
  intros (No & Np & _) H. assert (K : forall A (m : tx A), snd (sd_call m sd) = Err SqliteError) by (intros A m; unfold sd_call; destruct (sd_faults sd) as [|[|] fs]; try discriminate H; reflexivity).
  destruct c; try congruence; cbn [perform]; cbv zeta; cbn [snd]; unfold add_to_input_history, set_variable, touch_variable, get_variable, clear_variable, get_max_history_size, set_max_history_size; rewrite K; reflexivity.
Qed.
Lemma perform_accepted c d pos faults : fair c -> hd false faults = false ->
  sd_db (fst (perform c (mkSD d pos faults))) = sd_db (fst (perform c (mkSD d pos []))) /\ snd (perform c (mkSD d pos faults)) = snd (perform c (mkSD d pos [])).
Proof.
  intros (No & Np & _) H. assert (K : forall A (m : tx A), sd_db (fst (sd_call m (mkSD d pos faults))) = sd_db (fst (sd_call m (mkSD d pos []))) /\ snd (sd_call m (mkSD d pos faults)) = snd (sd_call m (mkSD d pos []))).
  { intros A m. unfold sd_call. cbn [sd_faults sd_db sd_pos]. destruct faults as [|[|] fs]; try discriminate H; destruct (m d) as [[a d']|e|p]; split; reflexivity. }
  destruct c; try congruence; cbn [perform]; cbv zeta; cbn [fst snd];
    (split; [apply K|f_equal; apply K]).
Qed.
Lemma call_cause c id d pos faults : program_file d -> fair c -> own_calls id c ->
  let r := snd (perform c (mkSD d pos faults)) in
  fits c r /\ forall e, r = RError e -> (hd false faults = true /\ e = SqliteError) \/ (hd false faults = false /\ e = SqliteConstraint /\ ~ In id (ids_of d)).
Proof.
  intros P F O r. destruct (hd false faults) eqn:Hd.
  { unfold r. rewrite perform_refused by assumption. split; [exact Logic.I|]. intros e [= <-]. auto. }
  unfold r. rewrite (proj2 (perform_accepted c d pos faults F Hd)). clear r. destruct (perform c (mkSD d pos [])) as [sd' r] eqn:E.
  destruct (perform_well _ _ _ _ _ _ P (@in_nil _ true) F E) as (W & _). cbn [snd]. pose proof F as (No & Np & Q).
  pose proof W as (_ & st & R & Er & _). cbn [m_call m_reply m_pre m_post] in *.
  destruct c as [|text| |y q n|y n|y|y| |n]; try congruence; cbn [own_calls] in O.
  - destruct O.
  - subst n. destruct (set_moment _ y q id W eq_refl (Q _ _ _ eq_refl)) as [(E1 & _)|(E1 & N)]; cbn [m_reply] in E1; rewrite E1; (split; [exact Logic.I|]); intros e H; [discriminate H|injection H as <-; auto].
  - subst n. destruct (touch_moment _ y id W eq_refl) as [E1|(E1 & N)]; cbn [m_reply] in E1; rewrite E1; (split; [exact Logic.I|]); intros e H; [discriminate H|injection H as <-; auto].
  - destruct (get_moment _ y W eq_refl) as [(v & E1 & _)|(E1 & _)]; cbn [m_reply] in E1; rewrite E1; (split; [cbn; eauto|discriminate]).
  - cbn in Er. rewrite Er. split; [exact Logic.I|discriminate].
  - cbn in Er. rewrite Er. split; [reflexivity|discriminate].
  - cbn [spec_call] in Er. destruct (Z.ltb_spec n 1); [lia|]. cbn [snd] in Er. rewrite Er. split; [exact Logic.I|discriminate].
Qed.
Lemma add_cause text d pos faults : program_file d -> hd false faults = false ->
  exists id, snd (perform (AddInput text) (mkSD d pos faults)) = RId id /\
    exists old, inputs_of (sd_db (fst (perform (AddInput text) (mkSD d pos faults)))) = old ++ [(id, text)].
Proof.
  intros P Hd. assert (F : fair (AddInput text)) by (split; [discriminate|]; split; [discriminate|intros ? ? ?; discriminate]).
  destruct (perform_accepted (AddInput text) d pos faults F Hd) as (-> & ->). destruct (perform (AddInput text) (mkSD d pos [])) as [sd' r] eqn:E.
  destruct (perform_well _ _ _ _ _ _ P (@in_nil _ true) F E) as (W & _). exact (add_moment _ text W eq_refl).
Qed.

Section Runs.
  Context (pr : profile) (ord : nat -> nat -> list str -> list str) (x : executor) (tm : nat -> terminal).
  Context (Ho : forall i n, iterates (ord i n)).
  Notation rstep := (room_step pr ord x tm).
  Notation rrun := (room_run pr ord x tm).
  Notation answers_honestly id := (honest (own_calls id) (fun e (ans : line_answer) => raises e (snd ans)) (fun ans => no_raise (snd ans))).
  Notation sameui := (same_ui).

  (** A program in the middle of a line makes its call. *)
  Lemma goes_perform i u c k w : sound_room w -> r_seat w i = Some (Working u (Ask c k)) ->
    exists sd, u_db u = Some sd /\ fair c /\ program_file (r_file w) /\ (refused i w <-> hd false (sd_faults sd) = true) /\
      let p := perform c (mkSD (r_file w) (sd_pos sd) (sd_faults sd)) in
      r_file (fst (rstep (Goes i) w)) = sd_db (fst p) /\
      r_seat (fst (rstep (Goes i) w)) i = Some (fst (go_on pr (tm i) (with_db u (Some (fst p))) (k (snd p)))) /\
      snd (rstep (Goes i) w) = snd (go_on pr (tm i) (with_db u (Some (fst p))) (k (snd p))).
  Proof.
    intros Sd Sk. destruct (proj2 Sd i _ Sk) as (N & P & _ & _ & Po). cbn [room_step]. rewrite Sk. destruct (u_db u) as [sd|] eqn:Ed; [|destruct N; reflexivity].
    exists sd. split; [reflexivity|]. split; [apply Po|]. split; [exact P|]. split.
    - split.
      + intros (u1 & sd1 & [S1|(t1 & S1)] & E1 & H1); [congruence|]. rewrite Sk in S1. injection S1 as <- _. congruence.
      + intros H. exists u, sd. split; [right; eauto|]. auto.
    - cbv zeta. destruct (perform _ _) as [sd' r]. destruct (go_on _ _ _ _) as [s out]. cbn [fst snd r_file r_seat]. rewrite seated_same. auto.
  Qed.
  Lemma rests u ans i : exists u' e, fst (answer_line pr (tm i) u ans) = Resting u' e.
  Proof. exact (answer_rests pr tm u ans i). Qed.
  (** It stays in the middle of the line: SQLite did not refuse the call. *)
  Lemma goes_within i u c k id w : sound_room w -> r_seat w i = Some (Working u (Ask c k)) -> answers_honestly id (Ask c k) -> midline i (fst (rstep (Goes i) w)) ->
    ~ refused i w /\ exists u1 c1 k1, r_seat (fst (rstep (Goes i) w)) i = Some (Working u1 (Ask c1 k1)) /\ sameui u u1 /\ answers_honestly id (Ask c1 k1).
  Proof.
    intros Sd Sk (Own & H) (u2 & t2 & M). destruct (goes_perform i u c k w Sd Sk) as (sd & Ed & F & P & Rf & _ & S1 & _).
    destruct (call_cause c id (r_file w) (sd_pos sd) (sd_faults sd) P F Own) as (Fr & _). specialize (H _ Fr).
    set (p := perform c _) in *. split.
    - intros R. apply Rf in R. assert (E : snd p = RError SqliteError) by (apply perform_refused; assumption). rewrite E in H, S1. destruct H as (a & K & _). rewrite K in S1. cbn [go_on] in S1.
      destruct (rests (with_db u (Some (fst p))) a i) as (u3 & e3 & X). congruence.
    - assert (Hk : exists c1 k1, k (snd p) = Ask c1 k1 /\ answers_honestly id (Ask c1 k1)).
      { destruct (k (snd p)) as [a|c1 k1] eqn:K; [exfalso; cbn [go_on] in S1; destruct (rests (with_db u (Some (fst p))) a i) as (u3 & e3 & X); congruence|].
        exists c1, k1. split; [reflexivity|]. destruct (snd p); try exact H. destruct H as (a & K' & _). congruence. }
      destruct Hk as (c1 & k1 & K & Hk). rewrite K in S1. cbn [go_on fst] in S1. exists (with_db u (Some (fst p))), c1, k1. split; [exact S1|]. split; [repeat split|exact Hk].
  Qed.
  Lemma same_ui_trans u1 u2 u3 : sameui u1 u2 -> sameui u2 u3 -> sameui u1 u3.
  Proof. intros (A1 & A2 & A3 & A4 & A5) (B1 & B2 & B3 & B4 & B5). repeat split; congruence. Qed.
  Lemma own_trace i id between : forall w u c k, sound_room w -> Forall proper_turn between ->
    r_seat w i = Some (Working u (Ask c k)) -> answers_honestly id (Ask c k) -> throughout pr ord x tm (midline i) between w ->
    exists u1 c1 k1, r_seat (rrun between w) i = Some (Working u1 (Ask c1 k1)) /\ sameui u u1 /\ answers_honestly id (Ask c1 k1) /\ sound_room (rrun between w) /\
      forall first rest, between = first ++ Goes i :: rest -> ~ refused i (rrun first w).
  Proof.
    induction between as [|tn between IH]; intros w u c k Sd Pp Sk H Th; cbn [room_run].
    - exists u, c, k. split; [exact Sk|]. split; [repeat split|]. split; [exact H|]. split; [exact Sd|]. intros [|] rest; discriminate.
    - inversion Pp; subst. destruct Th as (_ & Th). pose proof (sound_turn pr ord x tm tn w Ho H2 Sd) as Sd'.
      assert (Mid : midline i (fst (rstep tn w))) by (destruct between; apply Th).
      assert (D : tn = Goes i \/ tn <> Goes i) by (destruct tn as [| |j]; try (right; discriminate); destruct (Nat.eq_dec j i) as [->|Nj]; [left; reflexivity|right; congruence]).
      assert (K : (tn = Goes i -> ~ refused i w) /\ exists u1 c1 k1, r_seat (fst (rstep tn w)) i = Some (Working u1 (Ask c1 k1)) /\ sameui u u1 /\ answers_honestly id (Ask c1 k1)).
      { destruct D as [->|D]; [destruct (goes_within i u c k id w Sd Sk H Mid) as (A & B); auto|]. split; [contradiction|].
        exists u, c, k. split; [exact (working_stays pr ord x tm i u (Ask c k) tn w Sk D)|]. split; [repeat split|exact H]. }
      destruct K as (Nr & u1 & c1 & k1 & S1 & U1 & H1). destruct (IH _ _ _ _ Sd' H3 S1 H1 Th) as (u2 & c2 & k2 & S2 & U2 & Hh & Sd2 & N2).
      exists u2, c2, k2. split; [exact S2|]. split; [exact (same_ui_trans _ _ _ U1 U2)|]. split; [exact Hh|]. split; [exact Sd2|].
      intros [|tn' first] rest E; [injection E as -> _; cbn; apply Nr; reflexivity|]. cbn [app] in E. injection E as <- E. cbn [room_run]. eapply N2, E.
  Qed.
  (** Its last call. *)
  Lemma goes_last i u c k id w u' e : sound_room w -> r_seat w i = Some (Working u (Ask c k)) -> answers_honestly id (Ask c k) ->
    r_seat (fst (rstep (Goes i) w)) i = Some (Resting u' e) ->
    exists u1 ans, sameui u u1 /\ answer_line pr (tm i) u1 ans = (Resting u' e, snd (rstep (Goes i) w)) /\
      (refused i w -> snd ans = Err (RuntimeError SqliteError)) /\
      forall re, snd ans = Err (RuntimeError re) -> (refused i w /\ re = SqliteError) \/ (re = SqliteConstraint /\ ~ In id (ids_of (r_file w))).
  Proof.
    intros Sd Sk (Own & H) Fin. destruct (goes_perform i u c k w Sd Sk) as (sd & Ed & F & P & Rf & _ & S1 & O1).
    destruct (call_cause c id (r_file w) (sd_pos sd) (sd_faults sd) P F Own) as (Fr & Ca). specialize (H _ Fr). cbv zeta in Ca. set (p := perform c _) in *.
    rewrite S1 in Fin. destruct (k (snd p)) as [ans|c1 k1] eqn:K; [|discriminate Fin]. cbn [go_on] in *.
    exists (with_db u (Some (fst p))), ans. split; [repeat split|]. split; [rewrite O1; destruct (answer_line _ _ _ _) as [s out]; cbn in *; congruence|]. split.
    - intros R. apply Rf in R. assert (E : snd p = RError SqliteError) by (apply perform_refused; assumption). rewrite E in H. destruct H as (a & K' & Ra). cbn [honest] in *. congruence.
    - intros re E. destruct (snd p) as [| | | | |e0| |] eqn:Ep; try (exfalso; cbn [honest] in H; exact (H re E)). destruct H as (a & K' & Ra). assert (a = ans) by congruence. subst a.
      unfold raises in Ra. assert (e0 = re) by congruence. subst e0. destruct (Ca re eq_refl) as [(A & B)|(A & B & C)]; [left; split; [apply Rf, A|exact B]|right; auto].
  Qed.

  (** ** A whole line *)
  Lemma split_first {A} (x0 : A) l1 l2 first rest : ~ In x0 l1 -> first ++ x0 :: rest = l1 ++ x0 :: l2 ->
    (first = l1 /\ rest = l2) \/ exists m, first = l1 ++ x0 :: m /\ l2 = m ++ x0 :: rest.
  Proof.
    revert first. induction l1 as [|y l1 IH]; intros first N E.
    - destruct first as [|z first]; [injection E as ->; left; auto|]. injection E as -> E. right. exists first. auto.
    - destruct first as [|z first]; [injection E as -> _; destruct N; left; reflexivity|]. injection E as -> E.
      destruct (IH first ltac:(intros I; apply N; right; exact I) E) as [(-> & ->)|(m & -> & ->)]; [left; auto|right; exists m; auto].
  Qed.
  Lemma split_last {A} (x0 : A) b m rest : b ++ [x0] = m ++ x0 :: rest -> (rest = [] /\ m = b) \/ exists r', b = m ++ x0 :: r' /\ rest = r' ++ [x0].
  Proof.
    intros E. destruct rest as [|y rest] using rev_ind; [left; apply app_inj_tail in E as (-> & _); auto|]. right. exists rest. clear IHrest.
    replace (m ++ x0 :: rest ++ [y]) with ((m ++ x0 :: rest) ++ [y]) in E by (rewrite <- app_assoc; reflexivity). apply app_inj_tail in E as (-> & <-). auto.
  Qed.
  Lemma goes_dec i tn : {tn = Goes i} + {tn <> Goes i}.
  Proof. destruct tn as [| |j]; [right; discriminate..|]. destruct (Nat.eq_dec j i) as [->|N]; [left; reflexivity|right; congruence]. Qed.
  Lemma first_going i l : ~ In (Goes i) l \/ exists a b, l = a ++ Goes i :: b /\ ~ In (Goes i) a.
  Proof.
    induction l as [|tn l IH]; [left; intros []|]. destruct (goes_dec i tn) as [->|N]; [right; exists [], l; split; [reflexivity|intros []]|].
    destruct IH as [IH|(a & b & -> & Na)]; [left; intros [E|I]; auto|]. right. exists (tn :: a), b. split; [reflexivity|]. intros [E|I]; auto.
  Qed.
  Lemma waits i u t turns : forall w, r_seat w i = Some (Working u t) -> ~ In (Goes i) turns -> r_seat (rrun turns w) i = Some (Working u t).
  Proof.
    induction turns as [|tn turns IH]; intros w Sk N; [exact Sk|]. cbn [room_run]. apply IH; [|intros I; apply N; right; exact I].
    apply (working_stays pr ord x tm i u t tn w Sk). intros ->. apply N. left. reflexivity.
  Qed.
  Lemma throughout_app i a b : forall w, throughout pr ord x tm (midline i) (a ++ b) w -> throughout pr ord x tm (midline i) b (rrun a w).
  Proof. induction a as [|tn a IH]; intros w T; [exact T|]. cbn [app room_run] in *. apply IH. destruct T as (_ & T). exact T. Qed.
  Lemma throughout_head i b w : throughout pr ord x tm (midline i) b w -> midline i w.
  Proof. destruct b; intros T; apply T. Qed.
  Lemma app_cons_run a tn b w : rrun (a ++ tn :: b) w = rrun b (fst (rstep tn (rrun a w))).
  Proof. rewrite (rrun_app pr ord x tm). reflexivity. Qed.

  Lemma line_cause w i mods between u u' e out line : sound_room w -> Forall proper_turn between ->
    processes pr ord x tm w i mods between u u' e out -> shown (u_inputs u) = Ok line ->
    let now turns := rrun turns w in
    exists r, replied u u' e out r /\
      (forall first rest, line_turns i mods between = first ++ Goes i :: rest -> refused i (now first) -> rest = [] /\ r = Err (RuntimeError SqliteError)) /\
      (forall re, r = Err (RuntimeError re) ->
        (re = SqliteError /\ refused i (now (Receives i (EvKey KEnter mods) :: between))) \/
        (re = SqliteConstraint /\ exists first mid id, Receives i (EvKey KEnter mods) :: between = first ++ Goes i :: mid /\
           history_event_of (Goes i) (now first) = [Recorded i line] /\
           (exists old, inputs_of (r_file (now (first ++ [Goes i]))) = old ++ [(id, line)]) /\
           ~ In id (ids_of (r_file (now (first ++ Goes i :: mid)))))).
  Proof.
    intros Sd Pp Pr L now. pose proof Pr as (Sk & Th & Fin & Out). cbv zeta in Th, Fin, Out.
    set (enters := Receives i (EvKey KEnter mods)) in *. set (w1 := fst (rstep enters w)) in *.
    assert (A : valid_settings (u_args u)) by (destruct (proj2 Sd i _ Sk) as (_ & G); apply (G eq_refl)).
    assert (Sd1 : sound_room w1) by (apply sound_turn; [exact Ho|exact Logic.I|exact Sd]).
    destruct (line_starts pr ord x tm i mods w u Sk (throughout_head _ _ _ Th)) as (line0 & c & k & L0 & T & S1 & _).
    assert (line0 = line) by congruence. subst line0. fold enters w1 in S1.
    unfold line_io in T. assert (L' : @current_line runtime_error (u_inputs u) = Ok line) by exact L. rewrite L' in T. cbv zeta in T. injection T as <- T.
    set (v := with_file (r_file w) u) in *. assert (Uv : sameui u v) by (repeat split).
    set (h' := mkIH _ _ _ _ _) in T.
    assert (Hb : forall id, answers_honestly id (k (RId id))).
    { intros id. rewrite <- T. cbn [id_of]. eapply honest_bind; [apply (honest_body pr id (ord i (u_count u)) x line (u_args u) (u_vars u) A)| |].
      - intros [[a' vars'] r] N. exact N.
      - intros e0 [[a' vars'] r] R. eexists. split; [reflexivity|exact R]. }
    assert (Kr : forall e0, k (RError e0) = Finished (u_args u, h', u_vars u, Err (RuntimeError e0))) by (intros e0; rewrite <- T; reflexivity).
    assert (Fa : fair (AddInput line)) by (split; [discriminate|]; split; [discriminate|intros ? ? ?; discriminate]).
    assert (Rp : forall u1 ans, sameui u u1 -> answer_line pr (tm i) u1 ans = (Resting u' e, out) -> replied u u' e out (snd ans)).
    { intros u1 ans (E1 & _ & _ & _ & E5) Ea. pose proof (answered pr tm u1 ans u' e out i Ea) as X. destruct ans as [[[a' h1] vars'] r]. destruct X as (_ & _ & X).
      cbn [snd]. apply replied_of. rewrite E1, E5. exact X. }
    assert (Ne : enters <> Goes i) by discriminate.
    assert (Run : forall turns, now (enters :: turns) = rrun turns w1) by (intros; reflexivity).
    destruct (first_going i between) as [No|(a & b & -> & Na)].
    - (* the recording is the last call *)
      pose proof (waits i v _ between w1 S1 No) as S2. set (w2 := rrun between w1) in *.
      assert (Sd2 : sound_room w2) by (apply sound_turns; assumption).
      destruct (goes_perform i v _ k w2 Sd2 S2) as (sd & Ed & _ & P & Rf & _ & S3 & O3). set (p := perform _ _) in *.
      rewrite S3 in Fin. destruct (k (snd p)) as [ans|c1 k1] eqn:K; [|discriminate Fin]. cbn [go_on] in *.
      assert (Ea : answer_line pr (tm i) (with_db v (Some (fst p))) ans = (Resting u' e, out)).
      { destruct (answer_line _ _ _ _) as [s o] eqn:Ea. cbn [fst snd] in *. congruence. }
      exists (snd ans). split; [apply (Rp (with_db v (Some (fst p)))); [repeat split|exact Ea]|].
      assert (Yes : refused i w2 -> snd ans = Err (RuntimeError SqliteError)).
      { intros R. apply Rf in R. assert (E : snd p = RError SqliteError) by (apply perform_refused; assumption). rewrite E, Kr in K. injection K as <-. reflexivity. }
      split.
      + intros first rest E R. unfold line_turns in E. fold enters in E.
        assert (E' : first ++ Goes i :: rest = (enters :: between) ++ Goes i :: []) by (rewrite <- E; reflexivity).
        assert (Nx : ~ In (Goes i) (enters :: between)) by (intros [X|X]; [exact (Ne X)|exact (No X)]). destruct (split_first _ _ _ _ _ Nx E') as [(-> & ->)|(m & _ & X)]; [|destruct m; discriminate X].
        split; [reflexivity|]. apply Yes. exact R.
      + intros re E. left. rewrite Run. fold w2. destruct (hd false (sd_faults sd)) eqn:Hd.
        * assert (R : refused i w2) by (apply Rf; reflexivity). rewrite (Yes R) in E. injection E as <-. auto.
        * destruct (add_cause line (r_file w2) (sd_pos sd) (sd_faults sd) P Hd) as (id & Ei & _). fold p in Ei. rewrite Ei in K. pose proof (Hb id) as H. rewrite K in H. destruct (H re E).
    - (* it is not *)
      apply Forall_app in Pp as (Pa & Pb). assert (Pb' : Forall proper_turn b) by (inversion Pb; assumption).
      pose proof (waits i v _ a w1 S1 Na) as S2. set (w2 := rrun a w1) in *. assert (Sd2 : sound_room w2) by (apply sound_turns; assumption).
      apply throughout_app in Th. fold w2 in Th. destruct Th as (_ & Th). set (w3 := fst (rstep (Goes i) w2)) in *.
      assert (Sd3 : sound_room w3) by (apply sound_turn; [exact Ho|exact Logic.I|exact Sd2]).
      destruct (goes_perform i v _ k w2 Sd2 S2) as (sd & Ed & _ & P & Rf & F3 & S3 & _). fold w3 in F3, S3. set (p := perform _ _) in *.
      destruct (throughout_head _ _ _ Th) as (u3 & t3 & M).
      assert (Hd : hd false (sd_faults sd) = false).
      { destruct (hd false (sd_faults sd)) eqn:Hd; [|reflexivity]. exfalso. assert (E : snd p = RError SqliteError) by (apply perform_refused; assumption). rewrite E, Kr in S3. cbn [go_on] in S3.
        destruct (rests (with_db v (Some (fst p))) (u_args u, h', u_vars u, Err (RuntimeError SqliteError)) i) as (u4 & e4 & X). congruence. }
      destruct (add_cause line (r_file w2) (sd_pos sd) (sd_faults sd) P Hd) as (id & Ei & Old). fold p in Ei, Old. rewrite Ei in S3.
      pose proof (Hb id) as H. destruct (k (RId id)) as [ans|c1 k1] eqn:K.
      { exfalso. cbn [go_on] in S3. destruct (rests (with_db v (Some (fst p))) ans i) as (u4 & e4 & X). congruence. }
      cbn [go_on fst] in S3. destruct (own_trace i id b w3 _ _ _ Sd3 Pb' S3 H Th) as (u5 & c5 & k5 & S5 & U5 & H5 & Sd5 & N5).
      rewrite app_cons_run in Fin, Out. fold w2 w3 in Fin, Out. set (w5 := rrun b w3) in *.
      destruct (goes_last i u5 c5 k5 id w5 u' e Sd5 S5 H5 Fin) as (u6 & ans & U6 & Ea & Yes & Ca). rewrite Out in Ea.
      exists (snd ans). split; [apply (Rp u6); [|exact Ea]|].
      { apply (same_ui_trans _ v); [exact Uv|]. apply (same_ui_trans _ u5); [exact U5|exact U6]. }
      split.
      + intros first rest E R. unfold line_turns in E. fold enters in E.
        assert (E' : first ++ Goes i :: rest = (enters :: a) ++ Goes i :: (b ++ [Goes i])) by (rewrite <- E, <- app_assoc; reflexivity).
        assert (Nx : ~ In (Goes i) (enters :: a)) by (intros [X|X]; [exact (Ne X)|exact (Na X)]). destruct (split_first _ _ _ _ _ Nx E') as [(-> & ->)|(m & -> & X)].
        { exfalso. rewrite Run in R. fold w2 in R. apply Rf in R. congruence. }
        destruct (split_last _ _ _ _ X) as [(-> & ->)|(r' & -> & ->)].
        * split; [reflexivity|]. apply Yes. cbn [app] in R. rewrite Run, app_cons_run in R. exact R.
        * exfalso. cbn [app] in R. rewrite Run, app_cons_run in R. exact (N5 m r' eq_refl R).
      + intros re E. rewrite Run, app_cons_run. fold w2 w3 w5. destruct (Ca re E) as [(R & ->)|(-> & N)]; [left; auto|]. right. split; [reflexivity|].
        exists (enters :: a), b, id. split; [reflexivity|]. rewrite Run. fold w2. split; [cbn [history_event_of]; rewrite S2; reflexivity|].
        cbn [app]. rewrite !Run, !app_cons_run. fold w2 w3 w5. cbn [room_run]. split; [rewrite F3; exact Old|exact N].
  Qed.
End Runs.
