(** ProofsInterleave7.v -- interleaved calls (C90): the history. *)
From Verif Require Import Base Position Num TokenTypes Errors Token Operations SavedData Variables InputHistory
  SyntaxTree Commands Calculate Editor Sessions Main Io Together Interleave SpecGrammar SpecEval SpecHistory SpecSyntax SpecEditor SpecCalc SpecSession SpecData SpecMain SpecTogether SpecInterleave.
From Verif Require Import ProofsNum ProofsEval ProofsDb ProofsDb2 ProofsDb3 ProofsDb4 ProofsEditor4 ProofsCalc ProofsCalc2 ProofsCalc3 ProofsCalc4 ProofsCalc5 ProofsCalc6 ProofsCalc7 ProofsCalc8 ProofsCalc9 ProofsCalc10 ProofsCalm ProofsCalm2 ProofsMain ProofsMain2 ProofsTogether ProofsIo ProofsInterleave ProofsInterleave2 ProofsInterleave3 ProofsInterleave4 ProofsInterleave5 ProofsInterleave6.
From Coq Require Import String Lia.
Local Open Scope nat_scope.
Local Open Scope list_scope.

Lemma skipn_twice {A} n m (l : list A) : skipn n (skipn m l) = skipn (m + n) l.
Proof. revert l. induction m as [|m IH]; intros l; [reflexivity|]. destruct l; [rewrite !skipn_nil; reflexivity|]. cbn. apply IH. Qed.
Lemma newest_newest {A} n m (l : list A) (x : list A) : (0 <= n)%Z -> (n <= m)%Z -> newest n (newest m l ++ x) = newest n (l ++ x).
Proof.
  intros N M. unfold newest. rewrite !app_length, skipn_length. destruct (Nat.le_gt_cases (List.length l) (Z.to_nat m)) as [H|H].
  - replace (List.length l - Z.to_nat m) with 0 by lia. cbn [skipn]. f_equal. lia.
  - rewrite !skipn_app, skipn_twice. rewrite skipn_length. f_equal; [f_equal; lia|f_equal; lia].
Qed.
Lemma newest_map {A B} n (f : A -> B) l : map f (newest n l) = newest n (map f l).
Proof. unfold newest. rewrite map_length, skipn_map. reflexivity. Qed.
Lemma newest_last {A} n (l : list A) x : (1 <= n)%Z -> In x (newest n (l ++ [x])).
Proof.
  intros N. unfold newest. rewrite app_length. cbn [List.length]. rewrite skipn_app. apply in_or_app. right.
  replace (List.length l + 1 - Z.to_nat n - List.length l) with 0 by lia. left. reflexivity.
Qed.

(** What a turn does to the stored inputs and the capacity. *)
Definition inputs_change (d d' : database) (es : list history_event) : Prop :=
  forall cap, capacity d cap ->
  (es = [] /\ inputs_of d' = inputs_of d /\ capacity d' cap) \/
  (exists j line id, es = [Recorded j line] /\ inputs_of d' = newest cap (inputs_of d ++ [(id, line)]) /\ capacity d' cap) \/
  (exists n, es = [Resized n] /\
     if (n <? 1)%Z then inputs_of d' = inputs_of d /\ capacity d' cap else inputs_of d' = newest n (inputs_of d) /\ capacity d' n).
Lemma change_none d d' : d' = d -> inputs_change d d' [].
Proof. intros -> cap C. left. auto. Qed.
Lemma rep_capacity d st n : represents d st -> capacity d n <-> n = st_cap st.
Proof. intros R. unfold capacity. rewrite (rp_cap _ _ R). split; [intros [= <-]; reflexivity|intros ->; reflexivity]. Qed.
Lemma file_capacity d : program_file d -> exists cap, capacity d cap /\ (1 <= cap)%Z /\ (Z.of_nat (List.length (inputs_of d)) <= cap)%Z.
Proof.
  intros P. destruct (file_store d P) as (st & R). exists (st_cap st). split; [apply (rep_capacity _ _ _ R); reflexivity|]. split; [apply (rp_cap_pos _ _ R)|].
  rewrite (rep_inputs _ _ R). apply (rp_size _ _ R).
Qed.
Lemma moment_change i m : well m -> fair (m_call m) ->
  inputs_change (m_pre m) (m_post m) (match m_call m with AddInput line => [Recorded i line] | SetMax n => [Resized n] | _ => [] end).
Proof.
  intros (_ & st & R & _ & R') (No & Np & _) cap C. apply (rep_capacity _ _ _ R) in C as ->. rewrite (rep_inputs _ _ R), (rep_inputs _ _ R').
  assert (Cp : forall n, capacity (m_post m) n <-> n = st_cap (fst (spec_call (m_call m) st))) by (intros n; apply rep_capacity, R').
  destruct (m_call m) as [|text| |y q id|y id|y|y| |n]; try congruence; cbn [spec_call fst] in *.
  - right. left. exists i, text, (next_id (st_inputs st)). split; [reflexivity|]. split; [reflexivity|]. apply Cp. reflexivity.
  - left. split; [reflexivity|]. rewrite Cp. destruct (has_input (st_inputs st) id); split; reflexivity.
  - left. split; [reflexivity|]. rewrite Cp. destruct (st_vars st y) as [[q k]|]; [destruct (has_input (st_inputs st) id)|]; split; reflexivity.
  - left. split; [reflexivity|]. rewrite Cp. split; reflexivity.
  - left. split; [reflexivity|]. rewrite Cp. split; reflexivity.
  - left. split; [reflexivity|]. rewrite Cp. split; reflexivity.
  - right. right. exists n. split; [reflexivity|]. destruct (Z.ltb n 1); (split; [reflexivity|apply Cp; reflexivity]).
Qed.

Section History.
  Context (pr : profile) (ord : nat -> nat -> list str -> list str) (x : executor) (tm : nat -> terminal).
  Context (Ho : forall i n, iterates (ord i n)).
  Notation rstep := (room_step pr ord x tm).
  Notation rrun := (room_run pr ord x tm).
  Notation events := (history_events pr ord x tm).

  Lemma events_app a b w : events (a ++ b) w = events a w ++ events b (rrun a w).
  Proof. revert w. induction a as [|tn a IH]; intros w; [reflexivity|]. cbn [app history_events room_run]. rewrite IH, app_assoc. reflexivity. Qed.
  Lemma file_turn tn w : proper_turn tn -> sound_room w -> program_file (r_file w) -> program_file (r_file (fst (rstep tn w))).
  Proof.
    intros Pm S P. pose proof (sound_turn pr ord x tm tn w Ho Pm S) as (M & S'). revert M S'.
    destruct tn as [i a wanted|i ev|i]; cbn [room_step].
    - destruct (r_seat w i) eqn:Sk; [auto|]. destruct wanted as [faults|].
      + destruct (sd_open faults (r_file w)) as [file o] eqn:O. pose proof (reopen _ _ _ _ P O) as ->. destruct o as [sd|e|p]; [destruct (interactive_start pr (tm i) a (Some sd)) as [[u out] st]|..]; intros; exact P.
      + destruct (interactive_start pr (tm i) a None) as [[u out] st]. intros; exact P.
    - destruct (r_seat w i) as [[u e|u t]|] eqn:Sk; [|intros; exact P..]. destruct e; try (intros; exact P).
      assert (Ui : forall u' out st, ui_step pr (ord i) x (tm i) ev (with_file (r_file w) u) = (u', out, st) -> program_file (file_of (r_file w) u')).
      { intros u' out st E. destruct (proj2 S i _ Sk) as (_ & G). specialize (G eq_refl). pose proof (ui_step_good pr (ord i) x (tm i) ev _ (Ho i) G) as G'. rewrite E in G'. cbn [fst] in G'.
        unfold file_of. destruct (u_db u') as [sd|] eqn:D; [apply (proj2 (proj2 G')); exact D|exact P]. }
      destruct (enter ev); [destruct (u_db u)|]; [destruct (begin_line _ _ _ _ _) as [s0 out]; intros; exact P|destruct (ui_step _ _ _ _ _ _) as [[u' out] st]; intros; eapply Ui; reflexivity..].
    - destruct (r_seat w i) as [[u e|u t]|] eqn:Sk; [intros; exact P| |intros; exact P]. destruct (proj2 S i _ Sk) as (N & _ & A & V & Po).
      destruct t as [ans|c k]; [intros; exact P|]. destruct (u_db u) as [sd|] eqn:Ed; [|intros; exact P]. destruct Po as (Fc & K).
      pose proof (perform_file c (mkSD (r_file w) (sd_pos sd) (sd_faults sd)) P Fc) as P'. destruct (perform c _) as [sd' r]. destruct (go_on _ _ _ _) as [s0 out]. intros; exact P'.
  Qed.
  Lemma turn_change tn w : proper_turn tn -> calm_room w -> program_file (r_file w) -> inputs_change (r_file w) (r_file (fst (rstep tn w))) (history_event_of tn w).
  Proof.
    intros Pm Cw P. pose proof (proj1 Cw) as S. destruct tn as [i a wanted|i ev|i].
    - apply change_none. cbn [room_step]. destruct (r_seat w i) eqn:Sk; [reflexivity|]. destruct wanted as [faults|].
      + destruct (sd_open faults (r_file w)) as [file o] eqn:O. pose proof (reopen _ _ _ _ P O) as ->. destruct o as [sd|e|p]; [destruct (interactive_start pr (tm i) a (Some sd)) as [[u out] st]|..]; reflexivity.
      + destruct (interactive_start pr (tm i) a None) as [[u out] st]. reflexivity.
    - apply change_none. cbn [room_step]. destruct (r_seat w i) as [[u e|u t]|] eqn:Sk; [|reflexivity..]. destruct e; try reflexivity.
      destruct (enter ev) eqn:En; [destruct (u_db u) as [sd|] eqn:Ed|].
      + destruct (begin_line _ _ _ _ _) as [s0 out]. reflexivity.
      + pose proof (ui_step_none pr (ord i) x (tm i) ev (with_file (r_file w) u) (Ho i)) as Nn. rewrite with_file_db in Nn. destruct (proj2 S i _ Sk) as (_ & G). specialize (Nn (G eq_refl) Ed).
        destruct (ui_step _ _ _ _ _ _) as [[u' out] st]. cbn [fst r_file] in *. unfold file_of. rewrite Nn. reflexivity.
      + unfold ui_step. pose proof (handle_event_file ev (u_line (with_file (r_file w) u)) (u_inputs (with_file (r_file w) u)) (u_db (with_file (r_file w) u))) as F.
        destruct (handle_event ev _ _ _) as [[[l' h'] db'] act] eqn:He. cbv zeta.
        assert (Z : forall l0 h0 c0 a0, file_of (r_file w) (mkUi a0 (u_vars (with_file (r_file w) u)) db' h0 l0 c0) = r_file w).
        { intros. unfold file_of. cbn [u_db]. unfold same_file in F. cbn in F. destruct (u_db u), db'; try contradiction; [exact F|reflexivity]. }
        destruct act; cbn [fst r_file]; try apply Z.
        * destruct (display _ _ _ _ _) as [[l2 o2]|e2|p2]; cbn [fst r_file]; apply Z.
        * destruct (enter_only _ _ _ _ _ _ _ He) as ((mods & ->) & _). discriminate En.
    - cbn [history_event_of]. destruct (r_seat w i) as [[u e|u t]|] eqn:Sk; [apply change_none; cbn [room_step]; rewrite Sk; reflexivity| |apply change_none; cbn [room_step]; rewrite Sk; reflexivity].
      destruct t as [ans|c k]; [apply change_none; cbn [room_step]; rewrite Sk; reflexivity|].
      destruct (goes_step pr ord x tm i u c k w Cw Sk) as (m & sd' & W & E1 & E2 & E3 & _). destruct (proj2 S i _ Sk) as (_ & _ & _ & _ & Fc & _).
      pose proof (moment_change i m W) as K. rewrite E1, E2, E3 in K. specialize (K Fc). destruct c; exact K.
  Qed.
  Lemma history_run turns : forall w, Forall proper_turn turns -> Forall calm_turn turns -> calm_room w -> program_file (r_file w) ->
    program_file (r_file (rrun turns w)) /\
    forall h, has_history (r_file w) h -> has_history (r_file (rrun turns w)) (fold_left then_event (events turns w) h).
  Proof.
    induction turns as [|tn turns IH]; intros w Pp Cc Cw P; [split; [exact P|auto]|]. inversion Pp; subst. inversion Cc; subst. cbn [room_run history_events].
    pose proof (file_turn tn w H1 (proj1 Cw) P) as P'. pose proof (turn_change tn w H1 Cw P) as Ch. destruct (calm_turned pr ord x tm tn w Ho H1 H3 Cw) as (Cw' & _).
    destruct (IH _ H2 H4 Cw' P') as (P2 & K). split; [exact P2|]. intros h Hh. rewrite fold_left_app. apply K.
    destruct h as [cap lines]. destruct Hh as (C & T). cbn [fst snd] in C, T. unfold texts_of in T. unfold has_history, texts_of.
    destruct (Ch cap C) as [(-> & E & C')|[(j & line & id & -> & E & C')|(n & -> & E)]]; cbn [fold_left then_event fst snd].
    - rewrite E. auto.
    - rewrite E, newest_map, map_app. cbn [map snd]. rewrite T. auto.
    - destruct (Z.ltb n 1); cbn [fst snd]; destruct E as (E & C'); rewrite E; [auto|]. rewrite newest_map, T. auto.
  Qed.
  (** Without resizing, an input leaves only when as many lines as the capacity have been recorded after it. *)
  Lemma kept_run turns : forall w cap, Forall proper_turn turns -> Forall calm_turn turns -> calm_room w -> program_file (r_file w) ->
    capacity (r_file w) cap -> never_resized (events turns w) ->
    capacity (r_file (rrun turns w)) cap /\
    exists es, List.length es = List.length (events turns w) /\ inputs_of (r_file (rrun turns w)) = newest cap (inputs_of (r_file w) ++ es).
  Proof.
    induction turns as [|tn turns IH]; intros w cap Pp Cc Cw P C Nr.
    - split; [exact C|]. exists []. split; [reflexivity|]. rewrite app_nil_r. cbn [room_run]. symmetry. apply newest_all. destruct (file_capacity _ P) as (cap' & C' & _ & L). unfold capacity in *. congruence.
    - inversion Pp; subst. inversion Cc; subst. cbn [room_run history_events] in *.
      pose proof (file_turn tn w H1 (proj1 Cw) P) as P'. pose proof (turn_change tn w H1 Cw P) as Ch. destruct (calm_turned pr ord x tm tn w Ho H1 H3 Cw) as (Cw' & _).
      assert (Nr' : never_resized (events turns (fst (rstep tn w)))) by (intros n I; apply (Nr n), in_or_app; right; exact I).
      destruct (file_capacity _ P) as (cap' & C' & L1 & L). assert (cap' = cap) by (unfold capacity in *; congruence). subst cap'.
      destruct (Ch cap C) as [(E0 & E & C2)|[(j & line & id & E0 & E & C2)|(n & E0 & E)]].
      + destruct (IH _ cap H2 H4 Cw' P' C2 Nr') as (C3 & es & Le & Ei). split; [exact C3|]. exists es. rewrite E0. rewrite E in Ei. auto.
      + destruct (IH _ cap H2 H4 Cw' P' C2 Nr') as (C3 & es & Le & Ei). split; [exact C3|]. exists ((id, line) :: es). rewrite E0. cbn [app List.length]. split; [congruence|].
        rewrite Ei, E, newest_newest by lia. rewrite <- app_assoc. reflexivity.
      + exfalso. apply (Nr n). rewrite E0. left. reflexivity.
  Qed.
End History.
