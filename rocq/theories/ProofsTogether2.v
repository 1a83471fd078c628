(** ProofsTogether2.v -- programs sharing a file (C81): the history and the variables. *)
From Verif Require Import Base Position Num TokenTypes Errors Token SavedData Variables InputHistory
  SyntaxTree Commands Calculate Editor Sessions Main Io Together SpecGrammar SpecEval SpecHistory SpecEditor SpecCalc SpecCommands SpecSession SpecData SpecMain SpecTogether.
From Verif Require Import ProofsParse2 ProofsEval ProofsDb ProofsDb2 ProofsDb4 ProofsDb5 ProofsEditor ProofsEditor2 ProofsEditor4 ProofsCalc ProofsCalc3 ProofsCalc4 ProofsCalc5 ProofsCalc6 ProofsCalc7 ProofsCalc8 ProofsCalc9 ProofsCalc10 ProofsCalm ProofsCalm2 ProofsCommands ProofsCommands2 ProofsData
  ProofsSession ProofsSession2 ProofsMain ProofsMain2 ProofsRestart ProofsRestart2 ProofsIo ProofsTogether.
From Coq Require Import String Lia.
Local Open Scope nat_scope.
Local Open Scope list_scope.

Definition line_effect (d : database) (line : str) (radix : N) (input : str) (n : nat) (d' : database) : Prop :=
  room_for d' n /\ (exists id, inputs_of d' = inputs_of d ++ [(id, line)]) /\
  forall y, ~ writes radix input y -> forall v, on_disk d' y v <-> on_disk d y v.

Lemma line_shared pr ord input a h m sd se' r line n :
  working_session (mkSession a (Some h) (mkEnv (Some m) (Some sd))) -> shown h = Ok line -> iterates ord ->
  room_for (sd_db sd) (S n) -> ~ is_histcap (a_radix a) input ->
  calculate pr ord the_executor input (mkSession a (Some h) (mkEnv (Some m) (Some sd))) = (se', r) ->
  exists sd', e_db (s_env se') = Some sd' /\ line_effect (sd_db sd) line (a_radix a) input n (sd_db sd').
Proof.
  intros W Hl Ho Rm Nh C. set (se := mkSession a (Some h) (mkEnv (Some m) (Some sd))) in *.
  pose proof W as (Wa & We & Wr & Wn & _). pose proof (Wr sd eq_refl) as Pf.
  destruct (recorded_line _ _ _ _ _ _ _ _ _ _ W Hl C) as (id & sd1 & L & Pf1 & Ok1 & Ac & AR & B).
  change (after_recording se = mkEnv (Some m) (Some sd1)) in AR.
  destruct (recorded_roomy _ _ _ _ _ Pf L Rm) as (I1 & R1 & D1).
  assert (Fin : s_env se' = mkEnv (Some m) (Some sd1) -> exists sd', e_db (s_env se') = Some sd' /\ line_effect (sd_db sd) line (a_radix a) input n (sd_db sd')).
  { intros ->. exists sd1. split; [reflexivity|]. split; [exact R1|]. split; [exists id; exact I1|]. intros y _ v. apply D1. }
  destruct (tokenize input (a_radix a)) as [[ts|name arguments]|e|p] eqn:T.
  - destruct (calculate_expression _ _ _ _ _ _ _ ts (Wa : valid_settings (s_args se)) (We : env_ok (s_env se)) T C) as (_ & Ok' & K).
    rewrite AR in K. destruct K as [(E & _)|(Hk & _ & V)]; [apply Fin, E|].
    destruct (kept_same _ _ Hk sd1 eq_refl) as (sd' & Ed & Sh). exists sd'. split; [exact Ed|]. split; [eapply roomy_same; eauto|].
    split; [exists id; rewrite (proj1 Sh); exact I1|].
    assert (Sx : forall y v, stored (mkEnv (Some m) (Some sd1)) y v <-> on_disk (sd_db sd) y v).
    { intros y v. rewrite <- D1. unfold stored. cbn [e_db]. split; [intros (s & [= <-] & X); exact X|eauto]. }
    assert (Sy : forall y v, stored (s_env se') y v <-> on_disk (sd_db sd') y v).
    { intros y v. unfold stored. rewrite Ed. split; [intros (s & [= <-] & X); exact X|eauto]. }
    intros y Nw v. rewrite <- Sx, <- Sy. destruct V as [((_ & _ & _ & _ & St) & _)|(z & nn & w & As & _ & _ & _ & (_ & _ & _ & _ & St) & _)].
    + symmetry. apply St.
    + symmetry. apply St. intros ->. apply Nw. left. exists ts, nn. auto.
  - assert (Hc : is_command (a_radix a) input (pd_value name) (pd_value arguments)) by (exists name, arguments; auto).
    assert (Hs : forall c, resolve_in (pd_value name) = Some c -> keeps_state c = false -> command_aliases c = [] -> pd_value name = command_name c).
    { intros c R _ Na. apply resolve_only in R. rewrite Na in R. destruct R as [R|[]]; auto. }
    destruct (command_line_cases _ _ _ _ _ _ _ _ (Hc : is_command (a_radix (s_args se)) _ _ _) C) as [(_ & E & _)|(n0 & a0 & _ & _ & [(_ & _ & E & _)|(c & Rc & s1 & r1 & _ & Ks & _)])].
    + rewrite AR in E. apply Fin, E.
    + rewrite AR in E. apply Fin, E.
    + destruct (keeps_state c) eqn:Kc; [specialize (Ks eq_refl); rewrite AR in Ks; apply Fin, Ks|]. clear Ks.
      destruct c; try discriminate Kc; specialize (Hs _ Rc eq_refl eq_refl); cbn [command_name] in Hs; rewrite Hs in Hc.
      * destruct (reload_line _ _ _ _ _ _ _ _ _ _ _ W Hl Ho Hc C) as (id2 & d2 & sd2 & L2 & _ & Ed & Sh & K).
        destruct (recorded_roomy _ _ _ _ _ Pf L2 Rm) as (I2 & R2 & D2).
        exists sd2. split; [exact Ed|]. split; [eapply roomy_same; eauto|]. split; [exists id2; rewrite (proj1 Sh); exact I2|].
        intros y _ v. rewrite <- D2, !saved_disk. destruct K as [(names & order & rows & _ & _ & _ & _ & _ & Sv)|(_ & _ & _ & ->)]; [|reflexivity].
        split; intros (k & K).
        -- apply Sv in K as [(_ & K)|(_ & _ & k0 & K)]; eauto.
        -- destruct (in_dec (list_eq_dec N.eq_dec) y names) as [Iy|Ny]; [exists id2; apply Sv; right; eauto|exists k; apply Sv; left; auto].
      * destruct (purge_line _ _ _ _ _ _ _ _ _ _ _ W Hl Ho Hc C) as (id2 & d2 & sd2 & L2 & _ & Ed & Sh & K).
        destruct (recorded_roomy _ _ _ _ _ Pf L2 Rm) as (I2 & R2 & D2).
        exists sd2. split; [exact Ed|]. split; [eapply roomy_same; eauto|]. split; [exists id2; rewrite (proj1 Sh); exact I2|].
        intros y Nw v. rewrite <- D2, !saved_disk. destruct K as [(names & Vl & _ & _ & Sv)|(_ & _ & _ & ->)]; [|reflexivity].
        assert (Ny : ~ In y names) by (intros X; apply Nw; right; exists (pd_value arguments), names; auto).
        split; intros (k & K); exists k; [apply Sv in K; apply K|apply Sv; auto].
      * exfalso. apply Nh. exists (pd_value arguments). exact Hc.
  - destruct (body_unreadable _ _ _ _ _ _ _ _ _ _ ltac:(intros t; rewrite T; discriminate) B) as (_ & E & _). apply Fin, E.
  - destruct (body_unreadable _ _ _ _ _ _ _ _ _ _ ltac:(intros t; rewrite T; discriminate) B) as (_ & E & _). apply Fin, E.
Qed.

(** the part of the story between two states of a session, seen in the file *)
Definition effect (d : database) (new : list str) (d' : database) : Prop :=
  (forall line radix, In line new -> ~ is_histcap radix line) -> forall n, room_for d (List.length new + n) ->
  room_for d' n /\ (exists es, inputs_of d' = inputs_of d ++ es /\ map snd es = new) /\
  forall y, (forall line radix, In line new -> ~ writes radix line y) -> forall v, on_disk d' y v <-> on_disk d y v.
Lemma effect_none d : effect d [] d.
Proof. intros _ n R. split; [exact R|]. split; [exists []; rewrite app_nil_r; auto|]. intros y _ v. reflexivity. Qed.
Lemma effect_app d1 n1 d2 n2 d3 : effect d1 n1 d2 -> effect d2 n2 d3 -> effect d1 (n1 ++ n2) d3.
Proof.
  intros F1 F2 Nh n R. rewrite app_length in R.
  destruct (F1 (fun l r I => Nh l r (in_or_app _ _ _ (or_introl I))) (List.length n2 + n)) as (R2 & (e2 & T2 & N2) & V2); [rewrite Nat.add_assoc; exact R|].
  destruct (F2 (fun l r I => Nh l r (in_or_app _ _ _ (or_intror I))) n R2) as (R3 & (e3 & T3 & N3) & V3). split; [exact R3|]. split; [exists (e2 ++ e3); rewrite T3, T2, app_assoc, map_app, N2, N3; auto|].
  intros y Nw v. rewrite V3, V2; [reflexivity| |]; intros l r I; apply Nw, in_or_app; auto.
Qed.
Lemma effect_texts d new d' : (exists es, inputs_of d' = inputs_of d ++ es /\ map snd es = new) -> texts_of d' = texts_of d ++ new.
Proof. intros (es & E & <-). unfold texts_of. rewrite E, map_app. reflexivity. Qed.
Definition moves_on (u u' : ui) (new : list str) : Prop := submitted u' = submitted u ++ new /\
  forall sd, u_db u = Some sd -> exists sd', u_db u' = Some sd' /\ effect (sd_db sd) new (sd_db sd').
Lemma moves_on_trans u1 u2 u3 n1 n2 : moves_on u1 u2 n1 -> moves_on u2 u3 n2 -> moves_on u1 u3 (n1 ++ n2).
Proof.
  intros (E1 & K1) (E2 & K2). split; [rewrite E2, E1, app_assoc; reflexivity|].
  intros sd D. destruct (K1 sd D) as (sd2 & D2 & F1). destruct (K2 sd2 D2) as (sd3 & D3 & F2). exists sd3. split; [exact D3|]. eapply effect_app; eauto.
Qed.
Lemma moves_on_still u u' : submitted u' = submitted u -> same_file (u_db u) (u_db u') -> moves_on u u' [].
Proof.
  intros S F. split; [rewrite app_nil_r; exact S|]. intros sd E. rewrite E in F. destruct (u_db u') as [sd'|] eqn:D; [|destruct F]. cbn in F.
  exists sd'. split; [reflexivity|]. rewrite F. apply effect_none.
Qed.
Lemma moves_on_refl u : moves_on u u [].
Proof. apply moves_on_still; [reflexivity|apply same_file_refl]. Qed.
Lemma start_moves pr tm u : moves_on u (fst (fst (start_line pr tm u))) [].
Proof. unfold start_line. cbv zeta. destruct (display _ _ _ _ _) as [[? ?]|?|?]; cbn [fst]; apply moves_on_still; try reflexivity; apply same_file_refl. Qed.

Lemma finish_moves pr ord tm u : (forall n, iterates (ord n)) -> ui_steady u -> history_of_session (u_inputs u) ->
  exists new, moves_on u (fst (fst (finish_line pr ord the_executor tm u))) new /\
    (new = [] \/ exists line, new = [line] /\ shown (u_inputs u) = Ok line).
Proof.
  intros Ho U Hh. unfold finish_line. cbv zeta. destruct (display _ _ _ _ _) as [[l1 out1]|e|p]; [|exists []; split; [apply moves_on_refl|auto]..].
  destruct (current_line (u_inputs u)) as [input|e|p] eqn:L; [|exists []; split; [apply moves_on_refl|auto]..].
  change (mkSession (u_args u) (Some (u_inputs u)) (mkEnv (Some (u_vars u)) (u_db u))) with (session_of u).
  destruct (calculate pr (ord (u_count u)) the_executor input (session_of u)) as [se' r] eqn:C.
  destruct U as ((A & B & R) & (Cm & Ex)).
  assert (W : working_session (session_of u)) by (split; [exact A|]; split; [exact B|]; split; [exact R|]; split; [exact Cm|exact Hh]).
  destruct (recorded_session _ _ _ _ _ _ _ _ _ _ Hh L C) as (h' & Eh & _ & _).
  assert (Ei : ih_internal h' = ih_internal (u_inputs u) ++ [input]).
  { destruct (calculate_cases _ _ _ _ _ _ _ C) as [(_ & _ & h0 & h1 & db' & o & E0 & E1 & F & _)|(id & _ & _ & K)].
    - cbn in E0. injection E0 as <-. assert (h1 = h') by congruence. subst h1. unfold input_finished in F. rewrite L in F.
      cbn [session_of s_env e_db] in F. destruct (u_db u) as [sd|]; [destruct (add_to_input_history input sd) as [? [?|?|?]]|]; apply pair_equal_spec in F as [F _]; apply pair_equal_spec in F as [<- _]; reflexivity.
    - cbn [session_of s_inputs] in K. destruct K as (h1 & db' & E1 & F). assert (h1 = h') by congruence. subst h1. unfold input_finished in F. rewrite L in F.
      cbn [session_of s_env e_db] in F. destruct (u_db u) as [sd|]; [destruct (add_to_input_history input sd) as [? [?|?|?]]|]; apply pair_equal_spec in F as [F _]; apply pair_equal_spec in F as [<- _]; reflexivity. }
  rewrite Eh. exists [input]. split; [|right; exists input; split; [reflexivity|exact L]].
  match goal with |- context [start_line pr tm ?u0] => assert (G : moves_on u u0 [input]) end.
  { split; [exact Ei|]. intros sd Ed. cbn [u_db]. unfold session_of in C, W. rewrite Ed in C, W.
    destruct (calculate_db _ _ _ _ (session_of u) _ _ A B (Ho _) ltac:(unfold session_of; rewrite Ed; exact C)) as (_ & Db). cbn [session_of s_env e_db] in Db.
    destruct (e_db (s_env se')) as [sd'|] eqn:Ed'; [|specialize (Db eq_refl); congruence]. exists sd'. split; [reflexivity|].
    intros Nh n Rm.
    destruct (line_shared _ _ _ _ _ _ _ _ _ _ n W L (Ho _) Rm (Nh input _ (or_introl eq_refl)) C) as (sd2 & Ee & Rm' & (id & I) & Dk).
    rewrite Ee in Ed'. injection Ed' as <-. split; [exact Rm'|]. split; [exists [(id, input)]; auto|].
    intros y Nw. apply Dk. apply Nw. left. reflexivity. }
  destruct (render r) as [text|e|p]; [|exact G|exact G].
  match goal with |- context [start_line pr tm ?u0] => pose proof (moves_on_trans _ _ _ _ _ G (start_moves pr tm u0)) as SI; destruct (start_line pr tm u0) as [[u'' out3] st] end.
  exact SI.
Qed.
Definition is_enter (ev : event) : Prop := exists mods, ev = EvKey KEnter mods.
Lemma step_moves pr ord tm ev u : (forall n, iterates (ord n)) -> ui_steady u -> ui_ok u -> history_of_session (u_inputs u) ->
  exists new, moves_on u (fst (fst (ui_step pr ord the_executor tm ev u))) new /\
    (new = [] \/ exists line, new = [line] /\ is_enter ev /\ shown (u_inputs u) = Ok line).
Proof.
  intros Ho (G & S) Hok Hh. unfold ui_step. pose proof (handle_event_file ev (u_line u) (u_inputs u) (u_db u)) as F.
  pose proof (handle_event_internal ev (u_line u) (u_inputs u) (u_db u)) as I.
  pose proof (handle_event_steady ev (u_line u) (u_inputs u) (u_db u) S) as K.
  pose proof (handle_event_history ev (u_line u) (u_inputs u) (u_db u) Hh (proj2 Hok)) as Hh'.
  destruct (handle_event ev (u_line u) (u_inputs u) (u_db u)) as [[[l' h'] db'] act] eqn:E. cbn [internal_kept] in I. destruct K as (S' & P). cbn [history_result] in Hh'.
  assert (G' : forall l0, moves_on u (mkUi (u_args u) (u_vars u) db' h' l0 (u_count u)) []) by (intros l0; apply moves_on_still; [exact I|exact F]).
  destruct act; try (exists []; split; [apply G'|left; reflexivity]).
  - exists []. split; [|left; reflexivity]. destruct (display _ _ _ _ _) as [[l'' out]|e|p]; apply G'.
  - destruct (enter_only _ _ _ _ _ _ _ E) as (Mo & -> & -> & ->).
    destruct (finish_moves pr ord tm (mkUi (u_args u) (u_vars u) (u_db u) (u_inputs u) (u_line u) (u_count u)) Ho) as (new & M & N).
    + split; [destruct u; exact G|exact S'].
    + exact Hh'.
    + exists new. split; [exact (moves_on_trans _ _ _ _ _ (G' _) M)|]. destruct N as [->|(line & -> & Hl)]; [auto|right; exists line; auto].
Qed.

(** One move on the desk. *)
Lemma news_step pr ord tm mv k : (forall i n, iterates (ord i n)) -> proper_move mv -> calm_move mv -> calm_desk k -> program_file (k_file k) ->
  let k' := fst (desk_step pr ord the_executor tm mv k) in
  effect (k_file k) (news k mv k') (k_file k') /\ program_file (k_file k') /\
  (news k mv k' = [] \/ exists i ev u line, mv = Press i ev /\ is_enter ev /\ sits k i u /\ u_db u <> None /\ shown (u_inputs u) = Ok line /\ news k mv k' = [line]).
Proof.
  intros Ho Pm Cm (Sd & C) Pf. cbv zeta. destruct mv as [i a wanted|i ev]; cbn [desk_step].
  - assert (X : forall kk, k_file kk = k_file k -> effect (k_file k) (news k (Begin i a wanted) kk) (k_file kk) /\ program_file (k_file kk) /\
      (news k (Begin i a wanted) kk = [] \/ exists i0 ev u line, Begin i a wanted = Press i0 ev /\ is_enter ev /\ sits k i0 u /\ u_db u <> None /\ shown (u_inputs u) = Ok line /\ news k (Begin i a wanted) kk = [line])).
    { intros kk ->. cbn [news]. split; [apply effect_none|]. split; [exact Pf|left; reflexivity]. }
    destruct (k_seat k i); [apply X; reflexivity|]. destruct wanted as [faults|].
    + destruct (sd_open faults (k_file k)) as [file o] eqn:O. pose proof (reopen _ _ _ _ Pf O) as ->.
      destruct o as [sd|e|p]; [destruct (interactive_start pr (tm i) a (Some sd)) as [[u out] st]| |]; apply X; reflexivity.
    + destruct (interactive_start pr (tm i) a None) as [[u out] st]. apply X; reflexivity.
  - destruct (k_seat k i) as [[u e]|] eqn:Sk.
    2:{ cbn [fst news]. rewrite Sk. split; [apply effect_none|]. split; [exact Pf|left; reflexivity]. }
    assert (Same : effect (k_file k) (news k (Press i ev) k) (k_file k) /\ program_file (k_file k) /\ (news k (Press i ev) k = [] \/ exists i0 ev0 u line, Press i ev = Press i0 ev0 /\ is_enter ev0 /\ sits k i0 u /\ u_db u <> None /\ shown (u_inputs u) = Ok line /\ news k (Press i ev) k = [line])).
    { assert (Z : news k (Press i ev) k = []) by (cbn [news]; rewrite Sk; destruct (u_db u); [apply skipn_all|reflexivity]). rewrite Z. split; [apply effect_none|]. split; [exact Pf|left; reflexivity]. }
    destruct e; try exact Same. clear Same.
    destruct (C i u Sk) as (C1 & C2 & C3).
    destruct (step_moves pr (ord i) (tm i) ev (with_file (k_file k) u) (Ho i) C1 C2 C3) as (new & (M1 & M2) & Nw).
    pose proof (ui_step_good pr (ord i) the_executor (tm i) ev _ (Ho i) (proj1 C1)) as G.
    pose proof (ui_step_none pr (ord i) the_executor (tm i) ev _ (Ho i) (proj1 C1)) as Nn. rewrite with_file_db in Nn.
    destruct (ui_step pr (ord i) the_executor (tm i) ev (with_file (k_file k) u)) as [[u' out] st]. cbn [fst] in *. cbn [k_file news k_seat]. rewrite Sk, sit_same.
    change (submitted (with_file (k_file k) u)) with (submitted u) in M1.
    destruct (u_db u) as [sd|] eqn:D.
    + destruct (M2 (mkSD (k_file k) (sd_pos sd) (sd_faults sd))) as (sd' & D' & Ef); [cbn; rewrite D; reflexivity|]. cbn [sd_db] in Ef.
      unfold file_of. rewrite D'. rewrite M1, skipn_app, skipn_all, Nat.sub_diag. cbn [app skipn]. split; [exact Ef|]. split; [apply (proj2 (proj2 G)); exact D'|].
      destruct Nw as [->|(line & -> & En & Hl)]; [left; reflexivity|right]. exists i, ev, (with_file (k_file k) u), line. split; [reflexivity|]. split; [exact En|].
      split; [exists u; auto|]. split; [cbn; rewrite D; discriminate|]. auto.
    + unfold file_of. rewrite (Nn eq_refl). split; [apply effect_none|]. split; [exact Pf|left; reflexivity].
Qed.
Lemma news_run pr ord tm moves : (forall i n, iterates (ord i n)) -> forall k, Forall proper_move moves -> Forall calm_move moves -> calm_desk k -> program_file (k_file k) ->
  effect (k_file k) (all_news pr ord the_executor tm moves k) (k_file (desk_run pr ord the_executor tm moves k)).
Proof.
  intros Ho. induction moves as [|mv moves IH]; intros k P Cm S Pf; [apply effect_none|]. cbn [desk_run all_news]. inversion P; subst. inversion Cm; subst.
  destruct (news_step pr ord tm mv k Ho H1 H3 S Pf) as (E1 & P1 & _). destruct (calm_step pr ord the_executor tm mv k Ho H1 H3 S) as (S1 & _).
  cbv zeta. eapply effect_app; [exact E1|]. apply IH; assumption.
Qed.

Lemma assignment_unique ts x n y m : assignment ts x n -> assignment ts y m -> y = x /\ m = n.
Proof.
  intros (p & q & rest & -> & D) (p' & q' & rest' & E & D'). injection E as <- <- <- <-.
  assert (U : mkTree (Some (mkPositioned x p)) n = mkTree (Some (mkPositioned x p)) m) by (exact (line_tree_unique _ _ _ (lt_assignment x p q rest n D) (lt_assignment x p q rest m D'))).
  injection U as <-. auto.
Qed.
(** An assignment that is answered is on disk, and there for everyone who does not remember another value. *)
Lemma assignment_shared pr ord tm k i ev u line ts y n se' text :
  (forall i n, iterates (ord i n)) -> calm_desk k -> sits k i u -> u_db u <> None -> is_enter ev -> shown (u_inputs u) = Ok line ->
  is_expression (a_radix (u_args u)) line ts -> assignment ts y n ->
  calculate pr (ord i (u_count u)) the_executor line (session_of u) = (se', Ok text) ->
  let k' := fst (desk_step pr ord the_executor tm (Press i ev) k) in
  forall u', sits k' i u' ->
  exists v, line_value pr (u_args u) (after_recording (session_of u)) n v /\ remembered (ui_env u') y v /\ (forall w, on_disk (k_file k') y w <-> w = v).
Proof.
  intros Ho Cd (u0 & Sk & ->) Db (mods & ->) Hl Ex As Ca. cbv zeta. intros u' (u1 & Sk' & ->).
  destruct Cd as (Sd & C). destruct (C i u0 Sk) as (C1 & C2 & C3). cbn [desk_step] in Sk'. cbn [desk_step]. rewrite Sk in Sk' |- *.
  destruct (ui_step pr (ord i) the_executor (tm i) (EvKey KEnter mods) (with_file (k_file k) u0)) as [[u' out] st] eqn:St. cbn [fst k_file k_seat] in *.
  rewrite sit_same in Sk'. injection Sk' as -> Es. rewrite with_file_of.
  destruct C1 as ((A & B & R) & (Cm & Xh)).
  assert (Sub : exists r, calculate pr (ord i (u_count u0)) the_executor line (session_of (with_file (k_file k) u0)) = (session_of u1, r)).
  { unfold ui_step in St. cbn [handle_event] in St. unfold finish_line in St. cbv zeta in St. cbn [u_args u_inputs u_line u_vars u_db u_count] in St.
    destruct (display _ _ _ _ _) as [[l1 out1]|e|p]; [|injection St as <- <- <-; discriminate Es|injection St as <- <- <-; discriminate Es].
    pose proof Hl as Hl'. unfold shown in Hl'. rewrite Hl' in St.
    change (mkSession (u_args (with_file (k_file k) u0)) (Some (u_inputs (with_file (k_file k) u0))) (mkEnv (Some (u_vars (with_file (k_file k) u0))) (u_db (with_file (k_file k) u0)))) with (session_of (with_file (k_file k) u0)) in St.
    cbn [with_file u_count] in Ca, St. 
    destruct (calculate pr (ord i (u_count u0)) the_executor line (session_of (with_file (k_file k) u0))) as [se1 r1] eqn:C0.
    injection Ca as -> ->. cbn [render] in St.
    destruct (calculate_exhausted _ _ _ _ _ _ _ _ _ C0) as (h' & Eh & _).
    destruct (calculate_valid _ _ _ _ (session_of (with_file (k_file k) u0)) _ _ A B (Ho _ _) C0) as (_ & _ & V).
    destruct (e_vars (s_env se')) as [m'|] eqn:Em; [|exfalso; cbn in V; destruct V as [_ V]; discriminate (V eq_refl)].
    rewrite Eh in St. exists (Ok text). f_equal.
    match type of St with context [start_line pr (tm i) ?v] => set (v0 := v) in St; assert (Z : session_of v0 = se') end.
    { unfold session_of, v0. cbn. destruct se' as [a1 h1 [vv dd]]. cbn in *. congruence. }
    rewrite <- Z. clearbody v0. unfold start_line in St. cbv zeta in St.
    destruct (display pr _ false _ (u_inputs v0)) as [[l2 o2]|e|p]; injection St as <- _ _; reflexivity. }
  destruct Sub as (r & Su). cbn [with_file u_count] in Ca. rewrite Su in Ca. injection Ca as <- ->.
  destruct (calculate_expression _ _ _ _ (session_of (with_file (k_file k) u0)) _ _ ts A B Ex Su) as (_ & _ & [(_ & [(e & X)|(p & X)] & _)|(_ & _ & [(_ & X)|(z & nn & v & As' & Lv & _ & _ & Asg & Dk)])]); try discriminate X.
  - destruct (X text eq_refl y n As).
  - assert (z = y /\ nn = n) as (-> & ->) by (eapply assignment_unique; eassumption).
    exists v. split; [exact Lv|]. split; [exact (proj1 (proj2 Asg))|].
    assert (Nd : u_db u1 <> None).
    { intros N. apply Db. cbn. pose proof (proj2 (proj1 Asg)) as N'. cbn [session_of s_env e_db] in N'. specialize (N' N). unfold after_recording in N'. cbn in N'.
      destruct (u_db u0); [|reflexivity]. unfold input_finished in N'. unfold shown in Hl. cbn [with_file u_inputs] in Hl. rewrite Hl in N'.
      destruct (add_to_input_history _ _) as [? [?|?|?]]; discriminate N'. }
    destruct Dk as [(_ & [N|U])|((e & X) & _)]; [exfalso; apply Nd; exact N|intros w|discriminate X].
    rewrite <- (U w). unfold stored. cbn [session_of s_env e_db]. unfold file_of. destruct (u_db u1) as [sd1|] eqn:D1; [|destruct Nd; reflexivity].
    split; [intros X; eauto|intros (s & [= <-] & X); exact X].
Qed.
