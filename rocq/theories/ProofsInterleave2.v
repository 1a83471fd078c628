(** ProofsInterleave2.v -- interleaved calls (C88): programs nobody interrupts; the file. *)
From Verif Require Import Base Position Num TokenTypes Errors Token Operations SavedData Variables InputHistory
  SyntaxTree Commands Calculate Editor Sessions Main Io Together Interleave SpecGrammar SpecEval SpecHistory SpecEditor SpecCalc SpecSession SpecData SpecMain SpecTogether SpecInterleave.
From Verif Require Import ProofsNum ProofsEval ProofsEval2 ProofsEval3 ProofsDb ProofsDb2 ProofsDb4 ProofsParse3 ProofsEditor4 ProofsCalc ProofsCalc4 ProofsCalc5 ProofsCalc6 ProofsCalc7 ProofsCalc8 ProofsCalc9 ProofsMain ProofsMain2 ProofsTogether ProofsInterleave.
From Coq Require Import String Lia.
Local Open Scope nat_scope.
Local Open Scope list_scope.

Lemma seated_same f i s : seated f i s i = Some s.
Proof. unfold seated. rewrite Nat.eqb_refl. reflexivity. Qed.
Lemma seated_other f i s j : j <> i -> seated f i s j = f j.
Proof. intros N. unfold seated. destruct (Nat.eqb_spec j i); [contradiction|reflexivity]. Qed.
Lemma seated_twice f i s s' j : seated (seated f i s) i s' j = seated f i s' j.
Proof. unfold seated. destruct (Nat.eqb j i); reflexivity. Qed.

Section Runs.
  Context (pr : profile) (ord : nat -> nat -> list str -> list str) (x : executor) (tm : nat -> terminal).
  Notation rstep := (room_step pr ord x tm).
  Notation rrun := (room_run pr ord x tm).
  Notation rout := (room_output pr ord x tm).

  Lemma run_app a b w : rrun (a ++ b) w = rrun b (rrun a w).
  Proof. revert w. induction a as [|tn a IH]; intros w; [reflexivity|]. cbn [app room_run]. apply IH. Qed.
  Lemma out_app a b w : rout (a ++ b) w = rout a w ++ rout b (rrun a w).
  Proof. revert w. induction a as [|tn a IH]; intros w; [reflexivity|]. cbn [app room_run room_output]. rewrite IH, app_assoc. reflexivity. Qed.

  Lemma step_same tn w w' : same_room w w' -> same_room (fst (rstep tn w)) (fst (rstep tn w')) /\ snd (rstep tn w) = snd (rstep tn w').
  Proof.
    intros (F & S). destruct tn as [i a wanted|i ev|i]; cbn [room_step]; rewrite <- (S i), <- F; (destruct (r_seat w i) as [[u e|u t]|]; try (split; [split; assumption|reflexivity])).
    - destruct wanted as [faults|].
      + destruct (sd_open faults (r_file w)) as [file [sd|e|p]]; [|split; [split; [reflexivity|exact S]|reflexivity]..].
        destruct (interactive_start pr (tm i) a (Some sd)) as [[u out] st]. split; [|reflexivity]. split; [reflexivity|]. intros j. cbn. unfold seated. rewrite S. reflexivity.
      + destruct (interactive_start pr (tm i) a None) as [[u out] st]. split; [|reflexivity]. split; [reflexivity|]. intros j. cbn. unfold seated. rewrite S. reflexivity.
    - destruct e; try (split; [split; assumption|reflexivity]). destruct (enter ev); [destruct (u_db u) as [sd|]|].
      + destruct (begin_line _ _ _ _ _) as [s out]. split; [|reflexivity]. split; [reflexivity|]. intros j. cbn. unfold seated. rewrite S. reflexivity.
      + destruct (ui_step _ _ _ _ _ _) as [[u' out] st]. split; [|reflexivity]. split; [reflexivity|]. intros j. cbn. unfold seated. rewrite S. reflexivity.
      + destruct (ui_step _ _ _ _ _ _) as [[u' out] st]. split; [|reflexivity]. split; [reflexivity|]. intros j. cbn. unfold seated. rewrite S. reflexivity.
    - destruct t as [ans|c k]; [split; [split; assumption|reflexivity]|]. destruct (u_db u) as [sd|]; [|split; [split; assumption|reflexivity]].
      destruct (perform _ _) as [sd' r]. destruct (go_on _ _ _ _) as [s out]. split; [|reflexivity]. split; [reflexivity|]. intros j. cbn. unfold seated. rewrite S. reflexivity.
  Qed.
  Lemma run_same turns : forall w w', same_room w w' -> same_room (rrun turns w) (rrun turns w') /\ rout turns w = rout turns w'.
  Proof.
    induction turns as [|tn turns IH]; intros w w' H; [split; [exact H|reflexivity]|]. cbn [room_run room_output]. destruct (step_same tn w w' H) as (H1 & ->).
    destruct (IH _ _ H1) as (H2 & ->). auto.
  Qed.

  (** A program in the middle of a line goes on alone. *)
  Lemma goes_alone i t : forall u sd w, u_db u = Some sd -> r_seat w i = Some (Working u t) -> (exists c k, t = Ask c k) ->
    exists n, let fin := alone t (mkSD (r_file w) (sd_pos sd) (sd_faults sd)) in
      let sa := answer_line pr (tm i) (with_db u (Some (fst fin))) (snd fin) in
      same_room (rrun (repeat (Goes i) n) w) (mkRoom (sd_db (fst fin)) (seated (r_seat w) i (fst sa))) /\
      rout (repeat (Goes i) n) w = snd sa.
  Proof.
    induction t as [ans|c k IH]; intros u sd w Ed Es (c0 & k0 & E); [discriminate E|clear c0 k0 E].
    cbn [alone]. destruct (perform c (mkSD (r_file w) (sd_pos sd) (sd_faults sd))) as [sd' r] eqn:P.
    assert (St : rstep (Goes i) w = (mkRoom (sd_db sd') (seated (r_seat w) i (fst (go_on pr (tm i) (with_db u (Some sd')) (k r)))), snd (go_on pr (tm i) (with_db u (Some sd')) (k r)))).
    { cbn [room_step]. rewrite Es, Ed, P. destruct (go_on _ _ _ _) as [s out]. reflexivity. }
    destruct (k r) as [ans|c2 k2] eqn:K.
    - exists 1. cbn [repeat room_run room_output]. rewrite St. cbn [fst snd go_on alone]. rewrite app_nil_r. split; [split; reflexivity|reflexivity].
    - cbn [go_on fst snd] in St.
      destruct (IH r (with_db u (Some sd')) sd' (fst (rstep (Goes i) w)) eq_refl) as (n & Sm & Out).
      + rewrite St, K. cbn [fst r_seat]. apply seated_same.
      + rewrite K. eauto.
      + rewrite K in Sm, Out. rewrite St in Sm, Out. cbn [fst r_file r_seat] in Sm, Out. replace (mkSD (sd_db sd') (sd_pos sd') (sd_faults sd')) with sd' in Sm, Out by (destruct sd'; reflexivity).
        exists (S n). cbn [repeat room_run room_output]. rewrite St. cbn [fst snd app]. split; [|exact Out]. destruct Sm as (F & S). split; [exact F|]. intros j. rewrite S. cbn [r_seat]. apply seated_twice.
  Qed.

  Lemma finish_alone i u sd w : u_db u = Some sd -> sd_db sd = r_file w ->
    exists n, let w1 := mkRoom (r_file w) (seated (r_seat w) i (fst (begin_line pr (ord i) x (tm i) u))) in
      let '(u', out, st) := finish_line pr (ord i) x (tm i) u in
      same_room (rrun (repeat (Goes i) n) w1) (mkRoom (file_of (r_file w) u') (seated (r_seat w) i (Resting u' (ending_of st)))) /\
      snd (begin_line pr (ord i) x (tm i) u) ++ rout (repeat (Goes i) n) w1 = out.
  Proof.
    intros Ed Ef. unfold begin_line, finish_line. cbv zeta. destruct (display _ _ _ _ _) as [[l1 out1]|e|p]; cbn [fst snd].
    2,3: exists 0; cbn [repeat room_run room_output app]; unfold file_of; rewrite Ed, Ef; split; [split; reflexivity|reflexivity].
    destruct (current_line (u_inputs u)) as [input|e|p] eqn:L; cbn [fst snd].
    2,3: exists 0; cbn [repeat room_run room_output app]; unfold file_of; rewrite Ed, Ef, app_nil_r; split; [split; reflexivity|reflexivity].
    rewrite Ed. fold (both (u_vars u) sd). rewrite line_alone.
    set (t := line_io pr (ord i (u_count u)) x input (u_args u) (u_inputs u) (u_vars u)).
    assert (T : exists c k, t = Ask c k) by (unfold t, line_io; rewrite L; cbv zeta; eauto).
    assert (G : go_on pr (tm i) u t = (Working u t, [])) by (destruct T as (c & k & ->); reflexivity). rewrite G. cbn [fst snd].
    destruct (goes_alone i t u sd (mkRoom (r_file w) (seated (r_seat w) i (Working u t))) Ed (seated_same _ _ _) T) as (n & Sm & Out).
    exists n. cbn [r_file r_seat] in Sm, Out. replace (mkSD (r_file w) (sd_pos sd) (sd_faults sd)) with sd in Sm, Out by (destruct sd; cbn in Ef; rewrite Ef; reflexivity).
    destruct (alone t sd) as [sd' [[[a' h'] vars'] r]]. cbn [fst snd session_from s_args s_env s_inputs both e_vars e_db] in *. unfold answer_line in Sm, Out. cbn [u_db u_line u_count u_args with_db] in Sm, Out.
    assert (Two : forall s, same_room (rrun (repeat (Goes i) n) (mkRoom (r_file w) (seated (r_seat w) i (Working u t)))) (mkRoom (sd_db sd') (seated (seated (r_seat w) i (Working u t)) i s)) ->
                  same_room (rrun (repeat (Goes i) n) (mkRoom (r_file w) (seated (r_seat w) i (Working u t)))) (mkRoom (sd_db sd') (seated (r_seat w) i s))).
    { intros s (F & S). split; [exact F|]. intros j. rewrite S. apply seated_twice. }
    rewrite app_nil_r. destruct (render r) as [text|e|p].
    - match goal with |- context [start_line pr (tm i) ?u0] => pose proof (start_line_db pr (tm i) u0) as D; destruct (start_line pr (tm i) u0) as [[u2 out3] st] end.
      cbn [fst snd u_db] in D, Sm, Out. unfold file_of. rewrite D. split; [apply Two, Sm|rewrite Out; reflexivity].
    - cbn [fst snd] in Sm, Out. split; [apply Two, Sm|rewrite Out, app_nil_r; reflexivity].
    - cbn [fst snd] in Sm, Out. split; [apply Two, Sm|rewrite Out, app_nil_r; reflexivity].
  Qed.

  (** Every run of a desk is one of these. *)
  Definition turns_by (mv : move) (n : nat) : list turn :=
    match mv with
    | Begin i a wanted => [Enters i a wanted]
    | Press i ev => Receives i ev :: repeat (Goes i) n
    end.
  Lemma desk_move mv k : exists n, same_room (rrun (turns_by mv n) (room_of k)) (room_of (fst (desk_step pr ord x tm mv k))) /\
    rout (turns_by mv n) (room_of k) = snd (desk_step pr ord x tm mv k).
  Proof.
    destruct mv as [i a wanted|i ev]; cbn [turns_by].
    - exists 0. cbn [room_run room_output room_step desk_step room_of r_seat r_file]. destruct (k_seat k i) as [[u e]|] eqn:Sk; [split; [split; reflexivity|reflexivity]|].
      assert (Z : forall u e file, same_room (mkRoom file (seated (r_seat (room_of k)) i (Resting u e))) (room_of (mkDesk file (sit (k_seat k) i (u, e))))).
      { intros u e file. split; [reflexivity|]. intros j. cbn. unfold seated, sit. destruct (Nat.eqb j i); reflexivity. }
      destruct wanted as [faults|].
      + destruct (sd_open faults (k_file k)) as [file [sd|e|p]]; [|cbn; split; [split; reflexivity|reflexivity]..].
        destruct (interactive_start pr (tm i) a (Some sd)) as [[u out] st]. cbn [fst snd]. rewrite app_nil_r. split; [apply Z|reflexivity].
      + destruct (interactive_start pr (tm i) a None) as [[u out] st]. cbn [fst snd]. rewrite app_nil_r. split; [apply Z|reflexivity].
    - destruct (k_seat k i) as [[u e]|] eqn:Sk.
      2:{ exists 0. cbn [repeat room_run room_output room_step desk_step room_of r_seat r_file]. rewrite Sk. split; [split; reflexivity|reflexivity]. }
      assert (Ne : e <> Running -> exists n, same_room (rrun (Receives i ev :: repeat (Goes i) n) (room_of k)) (room_of (fst (desk_step pr ord x tm (Press i ev) k))) /\
                   rout (Receives i ev :: repeat (Goes i) n) (room_of k) = snd (desk_step pr ord x tm (Press i ev) k)).
      { intros N. exists 0. cbn [repeat room_run room_output room_step desk_step room_of r_seat r_file]. rewrite Sk. destruct e; try (destruct N; reflexivity); (split; [split; reflexivity|reflexivity]). }
      destruct e; try (apply Ne; discriminate). clear Ne.
      assert (Sr : r_seat (room_of k) i = Some (Resting u Running)) by (cbn; rewrite Sk; reflexivity).
      assert (Dk : desk_step pr ord x tm (Press i ev) k = let '(u', out, st) := ui_step pr (ord i) x (tm i) ev (with_file (k_file k) u) in
          (mkDesk (file_of (k_file k) u') (sit (k_seat k) i (u', ending_of st)), out)) by (cbn [desk_step]; rewrite Sk; reflexivity).
      assert (Z : forall u e file w, same_room w (mkRoom file (seated (r_seat (room_of k)) i (Resting u e))) -> same_room w (room_of (mkDesk file (sit (k_seat k) i (u, e))))).
      { intros u0 e file w (F & S). split; [exact F|]. intros j. rewrite S. cbn. unfold seated, sit. destruct (Nat.eqb j i); reflexivity. }
      rewrite Dk. destruct (enter ev) eqn:En; [destruct (u_db u) as [sd|] eqn:Ed|].
      + destruct ev as [code mods| | |]; try discriminate En. destruct code; try discriminate En.
        assert (Us : ui_step pr (ord i) x (tm i) (EvKey KEnter mods) (with_file (k_file k) u) = finish_line pr (ord i) x (tm i) (with_file (k_file k) u)) by reflexivity.
        rewrite Us. destruct (finish_alone i (with_file (k_file k) u) (mkSD (k_file k) (sd_pos sd) (sd_faults sd)) (room_of k)) as (n & K); [cbn; rewrite Ed; reflexivity|reflexivity|].
        exists n. cbn [room_run room_output]. cbv zeta in K.
        assert (St : rstep (Receives i (EvKey KEnter mods)) (room_of k) = (mkRoom (r_file (room_of k)) (seated (r_seat (room_of k)) i (fst (begin_line pr (ord i) x (tm i) (with_file (k_file k) u)))), snd (begin_line pr (ord i) x (tm i) (with_file (k_file k) u)))).
        { cbn [room_step]. rewrite Sr. cbn [enter]. rewrite Ed. change (r_file (room_of k)) with (k_file k). destruct (begin_line _ _ _ _ _) as [s out]. reflexivity. }
        rewrite St. cbn [fst snd]. destruct (finish_line _ _ _ _ _) as [[u' out] st]. destruct K as (K1 & K2). cbn [fst snd]. split; [apply Z, K1|exact K2].
      + exists 0. cbn [repeat room_run room_output room_step]. rewrite Sr, En, Ed. change (r_file (room_of k)) with (k_file k). destruct (ui_step _ _ _ _ _ _) as [[u' out] st]. cbn [fst snd]. rewrite app_nil_r.
        split; [apply Z; split; reflexivity|reflexivity].
      + exists 0. cbn [repeat room_run room_output room_step]. rewrite Sr, En. change (r_file (room_of k)) with (k_file k). destruct (ui_step _ _ _ _ _ _) as [[u' out] st]. cbn [fst snd]. rewrite app_nil_r.
        split; [apply Z; split; reflexivity|reflexivity].
  Qed.
  Lemma desk_runs moves : forall k, exists turns, same_room (rrun turns (room_of k)) (room_of (desk_run pr ord x tm moves k)).
  Proof.
    induction moves as [|mv moves IH]; intros k; [exists []; split; reflexivity|]. cbn [desk_run]. destruct (desk_move mv k) as (n & S1 & _).
    destruct (IH (fst (desk_step pr ord x tm mv k))) as (turns & S2). exists (turns_by mv n ++ turns). rewrite run_app.
    destruct (run_same turns _ _ S1) as ((F & S) & _). destruct S2 as (F2 & S2). split; [congruence|]. intros i. rewrite S. apply S2.
  Qed.
End Runs.
