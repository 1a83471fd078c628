(** ProofsInterleave6.v -- interleaved calls (C89-C91): the calls of one line within a run. *)
From Verif Require Import Base Position Num TokenTypes Errors Token Operations SavedData Variables InputHistory
  SyntaxTree Commands Calculate Editor Sessions Main Io Together Interleave SpecGrammar SpecEval SpecHistory SpecSyntax SpecEditor SpecCalc SpecSession SpecData SpecMain SpecTogether SpecInterleave.
From Verif Require Import ProofsNum ProofsEval ProofsDb ProofsDb2 ProofsDb4 ProofsEditor4 ProofsCalc ProofsCalc2 ProofsCalc3 ProofsCalc4 ProofsCalc5 ProofsCalc6 ProofsCalc7 ProofsCalc8 ProofsCalc9 ProofsCalc10 ProofsCalm ProofsCalm2 ProofsMain ProofsMain2 ProofsTogether ProofsInterleave ProofsInterleave2 ProofsInterleave3 ProofsInterleave4 ProofsInterleave5.
From Coq Require Import String Lia.
Local Open Scope nat_scope.
Local Open Scope list_scope.

Section Trace.
  Context (pr : profile) (ord : nat -> nat -> list str -> list str) (x : executor) (tm : nat -> terminal).
  Context (Ho : forall i n, iterates (ord i n)).
  Notation rstep := (room_step pr ord x tm).
  Notation rrun := (room_run pr ord x tm).
  Notation files := (room_files pr ord x tm).

  Lemma files_head turns w : exists fs, files turns w = r_file w :: fs.
  Proof. destruct turns; cbn; eauto. Qed.
  Lemma files_app a b w : files (a ++ b) w = removelast (files a w) ++ files b (rrun a w).
  Proof.
    revert w. induction a as [|tn a IH]; intros w; [reflexivity|]. cbn [app room_files room_run]. rewrite IH.
    destruct (files_head a (fst (rstep tn w))) as (fs & E). rewrite E. reflexivity.
  Qed.
  Lemma working_stays i u t tn w : r_seat w i = Some (Working u t) -> tn <> Goes i -> r_seat (fst (rstep tn w)) i = Some (Working u t).
  Proof.
    intros S N. assert (Oth : forall file j s, j <> i -> r_seat (mkRoom file (seated (r_seat w) j s)) i = Some (Working u t)) by (intros file j s D; cbn; rewrite seated_other; auto).
    destruct tn as [j a wanted|j ev|j]; cbn [room_step].
    - destruct (Nat.eq_dec j i) as [->|D]; [rewrite S; exact S|]. destruct (r_seat w j); [exact S|]. destruct wanted as [faults|].
      + destruct (sd_open faults (r_file w)) as [file [sd|e|p]]; [|exact S..]. destruct (interactive_start pr (tm j) a (Some sd)) as [[u' out] st]. apply Oth, D.
      + destruct (interactive_start pr (tm j) a None) as [[u' out] st]. apply Oth, D.
    - destruct (Nat.eq_dec j i) as [->|D]; [rewrite S; exact S|]. destruct (r_seat w j) as [[u' e|u' t']|]; [|exact S..]. destruct e; try exact S.
      destruct (enter ev); [destruct (u_db u')|]; [destruct (begin_line _ _ _ _ _) as [s2 out]|destruct (ui_step _ _ _ _ _ _) as [[u2 out] st]..]; apply Oth, D.
    - assert (D : j <> i) by congruence. destruct (r_seat w j) as [[u' e|u' t']|]; [exact S| |exact S]. destruct t' as [ans|c k]; [exact S|]. destruct (u_db u'); [|exact S].
      destruct (perform _ _) as [sd' r]. destruct (go_on _ _ _ _) as [s' out]. apply Oth, D.
  Qed.
  (** The state of the program, its handle apart. *)
  Definition same_ui (u u' : ui) : Prop := u_args u = u_args u' /\ u_vars u = u_vars u' /\ u_inputs u = u_inputs u' /\ u_line u = u_line u' /\ u_count u = u_count u'.
  (** These are the calls of program [i] during the turns. *)
  Inductive placed (i : nat) : list moment -> list turn -> room -> Prop :=
  | pl_end : forall w, placed i [] [] w
  | pl_skip : forall l tn rest w, tn <> Goes i -> placed i l rest (fst (rstep tn w)) -> placed i l (tn :: rest) w
  | pl_here : forall m l rest w u k, r_seat w i = Some (Working u (Ask (m_call m) k)) -> m_pre m = r_file w -> m_post m = r_file (fst (rstep (Goes i) w)) ->
      placed i l rest (fst (rstep (Goes i) w)) -> placed i (m :: l) (Goes i :: rest) w.
  Lemma goes_step i u c k w : calm_room w -> r_seat w i = Some (Working u (Ask c k)) ->
    exists m sd', well m /\ m_pre m = r_file w /\ m_call m = c /\ m_post m = r_file (fst (rstep (Goes i) w)) /\ sd_db sd' = m_post m /\
      r_seat (fst (rstep (Goes i) w)) i = Some (fst (go_on pr (tm i) (with_db u (Some sd')) (k (m_reply m)))) /\
      snd (rstep (Goes i) w) = snd (go_on pr (tm i) (with_db u (Some sd')) (k (m_reply m))).
  Proof.
    intros (Sd & C) Sk. destruct (proj2 Sd i _ Sk) as (N & P & A & V & Po). pose proof (C i _ Sk) as St. cbn in St.
    cbn [room_step]. rewrite Sk. destruct (u_db u) as [sd|] eqn:Ed; [|destruct N; reflexivity]. destruct Po as (Fc & K).
    destruct (perform c (mkSD (r_file w) (sd_pos sd) (sd_faults sd))) as [sd' r] eqn:Pe.
    destruct (perform_well _ _ _ _ _ _ P (proj1 St sd eq_refl) Fc Pe) as (W & Cs).
    exists (mkMoment (r_file w) c r (sd_db sd')), sd'. cbn [m_pre m_call m_post m_reply]. destruct (go_on _ _ _ _) as [s out] eqn:G. cbn [fst snd r_file r_seat].
    split; [exact W|]. repeat (split; [reflexivity|]). split; [apply seated_same|reflexivity].
  Qed.
  Lemma trace i (Q : list moment -> line_answer -> Prop) between : forall w u t l u' e,
    calm_room w -> Forall proper_turn between -> Forall calm_turn between ->
    r_seat w i = Some (Working u t) -> (exists c k, t = Ask c k) -> wp Q l t -> throughout pr ord x tm (midline i) between w ->
    r_seat (fst (rstep (Goes i) (rrun between w))) i = Some (Resting u' e) ->
    exists u1 sd1 ans l0 m, Q (l ++ l0 ++ [m]) ans /\ same_ui u u1 /\ u_db u1 = Some sd1 /\
      sd_db sd1 = r_file (rrun (between ++ [Goes i]) w) /\ m_post m = r_file (rrun (between ++ [Goes i]) w) /\
      answer_line pr (tm i) u1 ans = (Resting u' e, snd (rstep (Goes i) (rrun between w))) /\
      placed i (l0 ++ [m]) (between ++ [Goes i]) w.
  Proof.
    induction between as [|tn between IH]; intros w u t l u' e Cw Pp Cc Sk (c & k & ->) Wp Th Fin; cbn [room_run app] in *.
    - destruct (goes_step i u c k w Cw Sk) as (m & sd' & W & E1 & E2 & E3 & E4 & E5 & E6). specialize (Wp m W E2).
      rewrite E5 in Fin. destruct (k (m_reply m)) as [ans|c2 k2]; [|discriminate Fin]. cbn [go_on wp] in *.
      exists (with_db u (Some sd')), sd', ans, [], m. cbn [app]. split; [exact Wp|]. split; [repeat split|]. split; [reflexivity|]. split; [congruence|]. split; [exact E3|].
      split; [rewrite E6; destruct (answer_line pr (tm i) (with_db u (Some sd')) ans) as [s out]; cbn in *; congruence|].
      eapply pl_here; [rewrite E2; exact Sk|exact E1|exact E3|apply pl_end].
    - inversion Pp; subst. inversion Cc; subst. destruct Th as (_ & Th).
      destruct (calm_turned pr ord x tm tn w Ho H1 H3 Cw) as (Cw' & _).
      assert (D : tn = Goes i \/ tn <> Goes i) by (destruct tn as [| |j]; try (right; discriminate); destruct (Nat.eq_dec j i) as [->|Nj]; [left; reflexivity|right; congruence]).
      destruct D as [->|D].
      + destruct (goes_step i u c k w Cw Sk) as (m & sd' & W & E1 & E2 & E3 & E4 & E5 & E6). specialize (Wp m W E2).
          assert (Mid : midline i (fst (rstep (Goes i) w))) by (destruct between; apply Th).
          destruct (k (m_reply m)) as [ans|c2 k2] eqn:K.
          { exfalso. destruct Mid as (u2 & t2 & Mid). rewrite E5 in Mid. cbn [go_on] in Mid. unfold answer_line in Mid. destruct ans as [[[a' h'] vars'] r]. destruct (render r); [destruct (start_line _ _ _) as [[u3 out3] st3]|..]; discriminate Mid. }
          cbn [go_on fst] in E5.
          destruct (IH _ _ _ (l ++ [m]) _ _ Cw' H2 H4 E5 ltac:(eauto) Wp Th Fin) as (u1 & sd1 & ans1 & l0 & m1 & K1 & K2 & K3 & K4 & K5 & K6 & K7).
          exists u1, sd1, ans1, (m :: l0), m1. rewrite <- app_assoc in K1. split; [exact K1|]. split; [exact K2|]. repeat (split; [assumption|]).
          cbn [app]. eapply pl_here; [rewrite E2; exact Sk|exact E1|exact E3|exact K7].
      + pose proof (working_stays i u (Ask c k) tn w Sk D) as Sk'.
        destruct (IH _ _ _ l _ _ Cw' H2 H4 Sk' ltac:(eauto) Wp Th Fin) as (u1 & sd1 & ans1 & l0 & m & K1 & K2 & K3 & K4 & K5 & K6 & K7). exists u1, sd1, ans1, l0, m. repeat (split; [assumption|]). apply pl_skip; [exact D|exact K7].
  Qed.

  (** The calls of a line, from Enter on. *)
  Lemma process_trace i (Q : list moment -> line_answer -> Prop) mods between w u u' e out :
    calm_room w -> Forall proper_turn between -> Forall calm_turn between ->
    processes pr ord x tm w i mods between u u' e out ->
    exists line, shown (u_inputs u) = Ok line /\ (wp Q [] (line_io pr (ord i (u_count u)) x line (u_args u) (u_inputs u) (u_vars u)) ->
      exists u1 sd1 ans l0 m, Q (l0 ++ [m]) ans /\ same_ui u u1 /\ u_db u1 = Some sd1 /\
      let file' := r_file (rrun (line_turns i mods between) w) in
      sd_db sd1 = file' /\ m_post m = file' /\ answer_line pr (tm i) u1 ans = (Resting u' e, out) /\
      placed i (l0 ++ [m]) (line_turns i mods between) w).
  Proof.
    intros Cw Pp Cc (Sk & Th & Fin & Out). cbv zeta in *. set (w1 := fst (rstep (Receives i (EvKey KEnter mods)) w)) in *.
    assert (Cw1 : calm_room w1) by (apply calm_turned; [exact Ho|exact Logic.I|exact Logic.I|exact Cw]).
    assert (Mid : midline i w1) by (destruct between; apply Th). destruct Mid as (u2 & t2 & Mid).
    pose proof Mid as Mid0. unfold w1 in Mid. cbn [room_step] in Mid. rewrite Sk in Mid. cbn [enter] in Mid. destruct (u_db u) as [sd|] eqn:Ed.
    2:{ exfalso. destruct (ui_step _ _ _ _ _ _) as [[u3 o3] st3]. cbn [fst r_seat] in Mid. rewrite seated_same in Mid. discriminate Mid. }
    unfold begin_line in Mid. destruct (display _ _ _ _ _) as [[l1 out1]|e1|p1]; [|cbn [fst r_seat] in Mid; rewrite seated_same in Mid; discriminate Mid..].
    destruct (current_line (u_inputs (with_file (r_file w) u))) as [input|e1|p1] eqn:L; [|cbn [fst r_seat] in Mid; rewrite seated_same in Mid; discriminate Mid..].
    exists input. split; [exact L|]. intros Wp. set (t := line_io _ _ _ _ _ _ _) in Mid.
    assert (G : go_on pr (tm i) (with_file (r_file w) u) t = (Working (with_file (r_file w) u) t, [])) by (unfold t, line_io; rewrite L; reflexivity).
    assert (T : exists c k, t = Ask c k) by (unfold t, line_io; rewrite L; cbv zeta; eauto).
    rewrite G in Mid. cbn [fst r_seat] in Mid. rewrite seated_same in Mid. injection Mid as <- <-.
    destruct (trace i Q between w1 _ _ [] u' e Cw1 Pp Cc Mid0 T Wp Th Fin) as (u1 & sd1 & ans & l0 & m & K1 & K2 & K3 & K4 & K5 & K6 & K7).
    exists u1, sd1, ans, l0, m. split; [exact K1|]. split; [exact K2|]. split; [exact K3|]. cbv zeta. unfold line_turns. cbn [room_run]. fold w1. split; [exact K4|]. split; [exact K5|].
    split; [rewrite K6, Out; reflexivity|]. apply pl_skip; [discriminate|exact K7].
  Qed.
End Trace.
