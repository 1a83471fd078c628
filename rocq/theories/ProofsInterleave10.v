(** ProofsInterleave10.v -- interleaved calls (C89-C91): the statements. *)
From Verif Require Import Base Position Num TokenTypes Errors Token Operations SavedData Variables InputHistory
  SyntaxTree Commands Calculate Editor Sessions Main Io Together Interleave SpecGrammar SpecEval SpecHistory SpecSyntax SpecEditor SpecCalc SpecSession SpecData SpecMain SpecTogether SpecInterleave.
From Verif Require Import ProofsNum ProofsLex ProofsEval ProofsDb ProofsDb2 ProofsDb3 ProofsDb4 ProofsEditor4 ProofsCalc ProofsCalc2 ProofsCalc3 ProofsCalc4 ProofsCalc5 ProofsCalc6 ProofsCalc7 ProofsCalc8 ProofsCalc9 ProofsCalc10 ProofsCalm ProofsCalm2 ProofsCommands2 ProofsTerminal8 ProofsMain ProofsMain2 ProofsTogether ProofsInterleave ProofsInterleave2 ProofsInterleave3 ProofsInterleave4 ProofsInterleave5 ProofsInterleave6 ProofsInterleave7 ProofsInterleave8 ProofsInterleave9.
From Coq Require Import String Lia.
Local Open Scope nat_scope.
Local Open Scope list_scope.

Lemma assignment_fun ts y n y' n' : assignment ts y n -> assignment ts y' n' -> y = y' /\ n = n'.
Proof.
  intros A B. assert (Q : exists t, syntax_tree_new ts = Ok t).
  { destruct A as (p & q & rest & -> & D). exists (mkTree (Some (mkPositioned y p)) n). apply ProofsParse2.parse_iff. constructor. exact D. }
  destruct Q as (t & Q). destruct (assignment_tree _ _ _ _ Q A) as (p & ->). destruct (assignment_tree _ _ _ _ Q B) as (p' & E). injection E as -> _ ->. auto.
Qed.

Section Statements.
  Context (pr : profile) (ord : nat -> nat -> list str -> list str) (x : executor) (tm : nat -> terminal).
  Context (Ho : forall i n, iterates (ord i n)).
  Notation rstep := (room_step pr ord x tm).
  Notation rrun := (room_run pr ord x tm).
  Notation files := (room_files pr ord x tm).
  Notation events := (history_events pr ord x tm).

  Lemma reached before between d : Forall proper_turn (before ++ between) -> Forall calm_turn (before ++ between) -> made_file d ->
    calm_room (rrun before (empty_room d)) /\ Forall proper_turn between /\ Forall calm_turn between.
  Proof.
    intros P C M. apply Forall_app in P as (P1 & P2). apply Forall_app in C as (C1 & C2). split; [|auto]. apply calm_turns; [exact Ho|assumption..|]. apply calm_nobody, M.
  Qed.
  Lemma line_answers w i mods between u u' e out line ts : calm_room w -> Forall proper_turn between -> Forall calm_turn between ->
    processes pr ord x tm w i mods between u u' e out -> shown (u_inputs u) = Ok line -> is_expression (a_radix (u_args u)) line ts ->
    exists r, replied u u' e out r /\ u_args u' = u_args u /\
      remembered_after (files (Receives i (EvKey KEnter mods) :: between) w) ts (u_vars u) r (u_vars u') /\
      ((exists re, r = Err (RuntimeError re)) \/
       exists val, seen_at (files (Receives i (EvKey KEnter mods) :: between) w) (u_vars u) val /\ answers pr (u_args u) val ts r /\
         forall y n text, assignment ts y n -> r = Ok text -> exists v, meaning (has_values val) (power_with pr (u_args u)) n (Value v) /\ canon v /\
           vs_get (u_vars u') y = Some v /\ on_disk (r_file (rrun (line_turns i mods between) w)) y v).
  Proof.
    intros Cw Pp Cc Pr L It. destruct (line_facts pr ord x tm Ho _ _ _ _ _ _ _ _ Cw Pp Cc Pr) as (line0 & l & id & r & lm & L0 & Nl & Wl & Pl & _ & _ & Rp & Rt & _ & (l0 & ml & El & Ef) & Ex).
    assert (line0 = line) by congruence. subst line0. destruct (Ex ts It) as (Ea & Ct).
    assert (Fs : forall m, In m l -> In (m_pre m) (files (Receives i (EvKey KEnter mods) :: between) w)).
    { intros m I. rewrite <- (files_last pr ord x tm _ (Goes i)). apply (placed_file pr ord x tm i l _ _ m Pl I). }
    assert (Ps : forall m, In m l -> program_file (m_pre m)) by (intros m I; eapply Forall_forall in Wl; [apply Wl|exact I]).
    set (fs := files (Receives i (EvKey KEnter mods) :: between) w) in *.
    assert (Kn : forall vars y, known (u_vars u) l vars -> match vs_get (u_vars u) y with Some v => vs_get vars y = Some v | None => forall v, vs_get vars y = Some v -> exists d, In d fs /\ on_disk d y v end).
    { intros vars y (_ & K). specialize (K y). destruct (vs_get (u_vars u) y); [exact K|]. intros v E. destruct (K v E) as (m & I & D). eauto. }
    exists r. split; [exact Rp|]. split; [exact Ea|]. inversion Ct as [vars1 Ev K Hv Er|r0 missing K La An Na Er|y n v vars1 text l1 m A K Hv C M F El1 D Er]; subst.
    - split; [|left; eauto]. intros y Hy. destruct Hv as [->|(y0 & n & v & A & ->)]; [apply Kn, K|]. destruct Hy as [Hy|(msg & [=])]. rewrite vs_get_insert. destruct (str_eqb y y0) eqn:Q.
      + apply str_eqb_eq in Q as ->. destruct (Hy n A).
      + apply Kn, K.
    - split; [intros y _; apply Kn, K|]. right. destruct (known_values fs _ _ _ _ K La Nl Fs Ps) as (val & S1 & S2 & S3). exists val. split; [exact S1|]. split; [apply An; assumption|].
      intros y n text A ->. destruct (Na text eq_refl y n A).
    - split.
      + intros y0 [Hy|(msg & [=])]. rewrite Hv, vs_get_insert. destruct (str_eqb y0 y) eqn:Q; [apply str_eqb_eq in Q as ->; destruct (Hy n A)|apply Kn, K].
      + right. assert (La : lacking (l0 ++ [ml]) vars1 None) by (intros z [=]). destruct (known_values fs _ _ _ _ K La Nl Fs Ps) as (val & S1 & S2 & S3). exists val. split; [exact S1|].
        split; [eapply an_value; [right; exists y; exact A|apply M, S2|exact C|exact F]|]. intros y' n' text' A' _. destruct (assignment_fun _ _ _ _ _ A A') as (<- & <-).
        exists v. split; [apply M, S2|]. split; [exact C|]. split; [rewrite Hv, vs_get_insert, str_eqb_refl; reflexivity|]. apply app_inj_tail in El1 as (_ & ->). rewrite <- Ef. exact D.
  Qed.
  Lemma line_recorded w i mods between u u' e out line : calm_room w -> Forall proper_turn between -> Forall calm_turn between ->
    processes pr ord x tm w i mods between u u' e out -> shown (u_inputs u) = Ok line ->
    recorded_by i (events (line_turns i mods between) w) = [line].
  Proof.
    intros Cw Pp Cc Pr L. destruct (line_facts pr ord x tm Ho _ _ _ _ _ _ _ _ Cw Pp Cc Pr) as (line0 & l & id & r & lm & L0 & Nl & Wl & Pl & _ & _ & Rp & Rt & (m0 & l2 & El & C0 & _ & Nr) & _).
    assert (line0 = line) by congruence. subst line0. rewrite (placed_recorded pr ord x tm i l _ _ Pl), El. cbn [recorded_in flat_map]. rewrite C0. cbn. f_equal.
    clear - Nr. induction Nr as [|m l N _ IH]; [reflexivity|]. cbn. rewrite IH, app_nil_r. destruct (m_call m) eqn:E; try reflexivity. destruct (N text eq_refl).
  Qed.
  Lemma line_evicted w i mods between u u' e out line : calm_room w -> Forall proper_turn between -> Forall calm_turn between ->
    processes pr ord x tm w i mods between u u' e out -> shown (u_inputs u) = Ok line ->
    exists r, replied u u' e out r /\ forall re, r = Err (RuntimeError re) -> re = SqliteConstraint /\
      exists first mid rest id, line_turns i mods between = first ++ Goes i :: mid ++ Goes i :: rest /\
        history_event_of (Goes i) (rrun first w) = [Recorded i line] /\
        (exists old, inputs_of (r_file (rrun (first ++ [Goes i]) w)) = old ++ [(id, line)]) /\
        ~ In id (ids_of (r_file (rrun (first ++ Goes i :: mid) w))).
  Proof.
    intros Cw Pp Cc Pr L. destruct (line_facts pr ord x tm Ho _ _ _ _ _ _ _ _ Cw Pp Cc Pr) as (line0 & l & id & r & lm & L0 & Nl & Wl & Pl & _ & _ & Rp & Rt & (m0 & l2 & El & C0 & Old & Nr) & _).
    assert (line0 = line) by congruence. subst line0. exists r. split; [exact Rp|]. intros re E. destruct (Rt re E) as (-> & m & I & N). split; [reflexivity|]. subst l. cbn [tl] in I.
    destruct (placed_split pr ord x tm i [] m0 l2 _ _ Pl) as (first & b & Et & _ & E2 & (u1 & k1 & Es) & Pb). apply in_split in I as (c1 & c2 & ->).
    destruct (placed_split pr ord x tm i c1 m c2 _ _ Pb) as (mid & rest & -> & E3 & _). exists first, mid, rest, id. split; [exact Et|]. split; [cbn [history_event_of]; rewrite Es, C0; reflexivity|].
    rewrite E2 in Old. split; [exact Old|]. rewrite E3 in N. rewrite <- rrun_app, <- app_assoc in N. exact N.
  Qed.
  Lemma line_kept w i mods between u u' e out line cap : calm_room w -> Forall proper_turn between -> Forall calm_turn between ->
    processes pr ord x tm w i mods between u u' e out -> shown (u_inputs u) = Ok line -> capacity (r_file w) cap ->
    never_resized (events (line_turns i mods between) w) -> (Z.of_nat (List.length (events (line_turns i mods between) w)) <= cap)%Z ->
    exists r, replied u u' e out r /\ forall re, r <> Err (RuntimeError re).
  Proof.
    intros Cw Pp Cc Pr L C Nr Le. destruct (line_evicted _ _ _ _ _ _ _ _ _ Cw Pp Cc Pr L) as (r & Rp & H). exists r. split; [exact Rp|]. intros re E.
    destruct (H re E) as (_ & first & mid & rest & id & Et & Eh & (old & Eo) & N). clear H.
    pose proof (made_program _ _ (proj1 (proj1 Cw)) C) as Pf.
    assert (All : forall tn, In tn (line_turns i mods between) -> proper_turn tn /\ calm_turn tn).
    { intros tn [<-|I]; [split; exact Logic.I|]. apply in_app_or in I as [I|[<-|[]]]; [|split; exact Logic.I]. eapply Forall_forall in Pp; [|exact I]. eapply Forall_forall in Cc; [|exact I]. auto. }
    rewrite Et in All, Nr, Le. replace (first ++ Goes i :: mid ++ Goes i :: rest) with ((first ++ [Goes i]) ++ mid ++ Goes i :: rest) in * by (rewrite <- app_assoc; reflexivity).
    assert (F1 : Forall proper_turn (first ++ [Goes i]) /\ Forall calm_turn (first ++ [Goes i])) by (split; apply Forall_forall; intros tn I; apply All, in_or_app; left; exact I).
    assert (F2 : Forall proper_turn mid /\ Forall calm_turn mid) by (split; apply Forall_forall; intros tn I; apply All, in_or_app; right; apply in_or_app; left; exact I).
    rewrite !(events_app pr ord x tm) in Le, Nr. cbn [history_events] in Le, Nr. rewrite Eh in Le, Nr. rewrite !app_length in Le. cbn [List.length] in Le.
    set (w1 := rrun (first ++ [Goes i]) w) in *.
    destruct (kept_run pr ord x tm Ho (first ++ [Goes i]) w cap (proj1 F1) (proj2 F1) Cw Pf C) as (C1 & _).
    { intros n I. apply (Nr n). rewrite (events_app pr ord x tm) in I. cbn [history_events] in I. rewrite Eh in I. apply in_or_app. left. exact I. }
    pose proof (calm_turns pr ord x tm _ Ho w (proj1 F1) (proj2 F1) Cw) as Cw1. fold w1 in C1, Cw1. pose proof (made_program _ _ (proj1 (proj1 Cw1)) C1) as Pf1.
    destruct (kept_run pr ord x tm Ho mid w1 cap (proj1 F2) (proj2 F2) Cw1 Pf1 C1) as (_ & es & Les & Ei).
    { intros n I. apply (Nr n), in_or_app. right. apply in_or_app. left. exact I. }
    apply N. replace (rrun (first ++ Goes i :: mid) w) with (rrun mid w1) by (unfold w1; rewrite <- rrun_app, <- app_assoc; reflexivity).
    unfold ids_of. rewrite Ei, Eo. apply (in_map fst _ (id, line)). unfold newest. rewrite <- app_assoc, skipn_app. apply in_or_app. right. rewrite !app_length. cbn [List.length app].
    match goal with |- In _ (skipn ?k _) => replace k with 0 by lia end. left. reflexivity.
  Qed.
  (** A program that has ended stays as it is. *)
  Lemma ended_stays i u e tn w : r_seat w i = Some (Resting u e) -> e <> Running -> r_seat (fst (rstep tn w)) i = Some (Resting u e).
  Proof.
    intros S N. assert (Oth : forall file j s, j <> i -> r_seat (mkRoom file (seated (r_seat w) j s)) i = Some (Resting u e)) by (intros file j s D; cbn; rewrite seated_other; auto).
    destruct tn as [j a wanted|j ev|j]; cbn [room_step].
    - destruct (Nat.eq_dec j i) as [->|D]; [rewrite S; exact S|]. destruct (r_seat w j); [exact S|]. destruct wanted as [faults|].
      + destruct (sd_open faults (r_file w)) as [file [sd|er|p]]; [|exact S..]. destruct (interactive_start pr (tm j) a (Some sd)) as [[u' out] st]. apply Oth, D.
      + destruct (interactive_start pr (tm j) a None) as [[u' out] st]. apply Oth, D.
    - destruct (Nat.eq_dec j i) as [->|D]; [rewrite S; destruct e; try exact S; congruence|]. destruct (r_seat w j) as [[u' e'|u' t']|]; [|exact S..]. destruct e'; try exact S.
      destruct (enter ev); [destruct (u_db u')|]; [destruct (begin_line _ _ _ _ _) as [s2 out]|destruct (ui_step _ _ _ _ _ _) as [[u2 out] st]..]; apply Oth, D.
    - destruct (Nat.eq_dec j i) as [->|D]; [rewrite S; exact S|]. destruct (r_seat w j) as [[u' e'|u' t']|]; [exact S| |exact S]. destruct t' as [ans|c k]; [exact S|]. destruct (u_db u'); [|exact S].
      destruct (perform _ _) as [sd' r]. destruct (go_on _ _ _ _) as [s' out]. apply Oth, D.
  Qed.
  Lemma all_mild turns : forall w, Forall proper_turn turns -> Forall calm_turn turns -> calm_room w ->
    (forall i u e, r_seat w i = Some (Resting u (FailedWith e)) -> mild e) ->
    forall i u e, r_seat (rrun turns w) i = Some (Resting u (FailedWith e)) -> mild e.
  Proof.
    induction turns as [|tn turns IH]; intros w P C Cw H; [exact H|]. inversion P; subst. inversion C; subst. cbn [room_run]. destruct (calm_turned pr ord x tm tn w Ho H2 H4 Cw) as (Cw' & M).
    apply IH; try assumption. intros i u e E.
    destruct (r_seat w i) as [[u0 e0|u0 t0]|] eqn:S0.
    - destruct e0 as [|e0|p0|]; try (apply (M i u e); [rewrite S0; discriminate|exact E]).
      rewrite (ended_stays i u0 (FailedWith e0) tn w S0) in E by discriminate. injection E as _ <-. eapply H, S0.
    - apply (M i u e); [rewrite S0; discriminate|exact E].
    - apply (M i u e); [rewrite S0; discriminate|exact E].
  Qed.
End Statements.
