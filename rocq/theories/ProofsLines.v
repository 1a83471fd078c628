(** ProofsLines.v -- only the submitted lines matter. *)
From Verif Require Import Base Position Num TokenTypes Errors Token Operations SavedData Variables InputHistory
  SyntaxTree Commands Calculate Editor Sessions Main Io Together Interleave SpecEval SpecHistory SpecEditor SpecCalc SpecSession SpecMain SpecTerminal
  SpecLines ProofsParse2 ProofsCalc4 ProofsCalc5 ProofsCalc6 ProofsCalc8 ProofsCalm2 ProofsInterleave ProofsInterleave8 ProofsInterleave12 ProofsRestart2 ProofsSession ProofsIo.
From Coq Require Import String Lia.
Local Open Scope nat_scope.
Local Open Scope list_scope.

Definition healthy (sd : saved_data) : Prop := ~ In true (sd_faults sd).
Definition twin (a b : saved_data) : Prop := sd_db a = sd_db b /\ healthy a /\ healthy b.
Definition twins (a b : option saved_data) : Prop := match a, b with Some x, Some y => twin x y | None, None => True | _, _ => False end.

Lemma healthy_tl sd d p : healthy sd -> healthy (mkSD d p (tl (sd_faults sd))).
Proof. unfold healthy. cbn. destruct (sd_faults sd) as [|f fs]; [auto|]. intros N I. apply N. right. exact I. Qed.
Lemma call_twin {A} (f : tx A) a b : twin a b -> snd (sd_call f a) = snd (sd_call f b) /\ twin (fst (sd_call f a)) (fst (sd_call f b)).
Proof.
  intros (E & Ha & Hb). unfold sd_call. rewrite E.
  destruct (sd_faults a) as [|[|] fa] eqn:Fa; [|destruct Ha; rewrite Fa; left; reflexivity|];
  (destruct (sd_faults b) as [|[|] fb] eqn:Fb; [|destruct Hb; rewrite Fb; left; reflexivity|]); rewrite <- ?Fa, <- ?Fb;
  destruct (f (sd_db b)) as [[x d]|e|p]; (split; [reflexivity|]); (split; [reflexivity|split; (apply healthy_tl; assumption)]).
Qed.
Definition of_line (c : call) : Prop := match c with Open | PrevInput => False | _ => True end.
Lemma perform_twin c a b : of_line c -> twin a b -> snd (perform c a) = snd (perform c b) /\ twin (fst (perform c a)) (fst (perform c b)).
Proof.
  intros C T. assert (K : forall A (m : tx A) (g : outcome runtime_error A -> reply), g (snd (sd_call m a)) = g (snd (sd_call m b)) /\ twin (fst (sd_call m a)) (fst (sd_call m b))).
  { intros A m g. destruct (call_twin m a b T) as (E & T'). split; [rewrite E; reflexivity|exact T']. }
  destruct c; try destruct C; cbn [perform]; cbv zeta; cbn [fst snd]; apply K.
Qed.
Lemma alone_twin {A} (t : io A) : calls of_line t -> forall a b, twin a b -> snd (alone t a) = snd (alone t b) /\ twin (fst (alone t a)) (fst (alone t b)).
Proof.
  induction t as [r|c k IH]; intros Cs a b T; [split; [reflexivity|exact T]|]. destruct Cs as (C & Cs). cbn [alone].
  destruct (perform_twin c a b C T) as (E & T'). destruct (perform c a) as [a' ra]. destruct (perform c b) as [b' rb]. cbn [fst snd] in E, T'. subst rb. apply IH; auto.
Qed.
Lemma own_of_line radix line id c : own_call radix line id c -> of_line c.
Proof. destruct c; cbn; auto. Qed.

(** Two sessions that differ only in how the line was typed. *)
Definition match_up (se1 se2 : session) : Prop :=
  s_args se1 = s_args se2 /\ e_vars (s_env se1) = e_vars (s_env se2) /\ twins (e_db (s_env se1)) (e_db (s_env se2)) /\
  exists h1 h2, s_inputs se1 = Some h1 /\ s_inputs se2 = Some h2 /\ ih_internal h1 = ih_internal h2.
Lemma line_again h line : @current_line runtime_error h = Ok line -> forall E, @current_line E h = Ok line.
Proof.
  intros L E. unfold current_line, nth_ok, bind in *. destruct (nth_error (ih_current h) (ih_index h)) as [[t|]|]; [|destruct (Nat.leb _ _)|discriminate L].
  - apply ok_inj in L as ->. reflexivity.
  - destruct (nth_error (ih_internal h) _); [apply ok_inj in L as ->; reflexivity|discriminate L].
  - destruct (nth_error (ih_db h) _); [apply ok_inj in L as ->; reflexivity|discriminate L].
Qed.
Lemma calculate_match pr ord line a vars h1 h2 db1 db2 : iterates ord -> valid_settings a -> env_ok (mkEnv (Some vars) db1) ->
  @current_line runtime_error h1 = Ok line -> @current_line runtime_error h2 = Ok line -> ih_internal h1 = ih_internal h2 -> twins db1 db2 ->
  let r1 := calculate pr ord the_executor line (mkSession a (Some h1) (mkEnv (Some vars) db1)) in
  let r2 := calculate pr ord the_executor line (mkSession a (Some h2) (mkEnv (Some vars) db2)) in
  snd r1 = snd r2 /\ match_up (fst r1) (fst r2) /\ (exists vars', e_vars (s_env (fst r1)) = Some vars') /\
  exists h, s_inputs (fst r1) = Some h /\ ih_internal h = ih_internal h1 ++ [line].
Proof.
  intros Ho Va Ok1 L1 L2 Ei T. cbv zeta. destruct db1 as [sd1|], db2 as [sd2|]; try contradiction.
  - fold (both vars sd1) (both vars sd2). rewrite !line_alone. unfold line_io.
    rewrite (line_again _ _ L1), (line_again _ _ L2). cbv zeta. rewrite <- Ei. cbn [alone].
    destruct (perform_twin (AddInput line) sd1 sd2 Logic.I T) as (E & T'). destruct (perform (AddInput line) sd1) as [s1 q]. destruct (perform (AddInput line) sd2) as [s2 q2]. cbn [fst snd] in E, T'. subst q2.
    assert (Fin : forall a' vars' (o : outcome failure str), let h := mkIH (ih_internal h1 ++ [line]) (ih_db h1) [Some []] 0 (ih_exhausted h1) in let h' := mkIH (ih_internal h1 ++ [line]) (ih_db h2) [Some []] 0 (ih_exhausted h2) in
      forall x1 x2, twin x1 x2 -> let r1 := session_from (x1, (a', h, vars', o)) in let r2 := session_from (x2, (a', h', vars', o)) in
      snd r1 = snd r2 /\ match_up (fst r1) (fst r2) /\ (exists vars'', e_vars (s_env (fst r1)) = Some vars'') /\ exists h0, s_inputs (fst r1) = Some h0 /\ ih_internal h0 = ih_internal h1 ++ [line]).
    { intros a' vars' o h h' x1 x2 T2. cbn. split; [reflexivity|]. split; [|split; eexists; [reflexivity|split; reflexivity]]. split; [reflexivity|]. split; [reflexivity|]. split; [exact T2|]. eexists _, _. split; [reflexivity|]. split; reflexivity. }
    destruct (id_of q) as [id|e|p]; [|apply Fin; exact T'..].
    rewrite !alone_bind.
    destruct (alone_twin (body_io pr ord the_executor line id a vars)) with (a := s1) (b := s2) as (E2 & T2); [|exact T'|].
    { eapply calls_weaken; [|apply own_body; exact Ho]. intros c. apply own_of_line. }
    destruct (alone (body_io pr ord the_executor line id a vars) s1) as [s1' av]. destruct (alone (body_io pr ord the_executor line id a vars) s2) as [s2' av2]. cbn [fst snd] in E2, T2. subst av2.
    destruct av as [[a' vars'] o]. apply Fin, T2.
  - destruct (calculate pr ord the_executor line (mkSession a (Some h1) (mkEnv (Some vars) None))) as [se1 r1] eqn:C1.
    pose proof (calculate_valid _ _ _ _ (mkSession a (Some h1) (mkEnv (Some vars) None)) _ _ Va Ok1 Ho C1) as (_ & _ & V).
    pose proof (calculate_db _ _ _ _ (mkSession a (Some h1) (mkEnv (Some vars) None)) _ _ Va Ok1 Ho C1) as (K & _). specialize (K eq_refl).
    cbn [fst snd]. cbn [s_env e_vars] in V.
    destruct (calculate pr ord the_executor line (mkSession a (Some h2) (mkEnv (Some vars) None))) as [se2 r2] eqn:C2.
    unfold calculate in C1, C2. cbn [s_inputs s_env s_args e_db e_vars] in C1, C2. unfold input_finished in C1, C2. rewrite L1 in C1. rewrite L2 in C2. cbv zeta in C1, C2. rewrite <- Ei in C2.
    destruct (calculate_body pr ord the_executor line None a (mkEnv (Some vars) None)) as [[a' s'] r] eqn:B. apply pair_equal_spec in C1 as [<- <-]. apply pair_equal_spec in C2 as [<- <-]. cbn in *.
    split; [reflexivity|]. split; [|split].
    + split; [reflexivity|]. split; [reflexivity|]. cbn. rewrite K. split; [exact Logic.I|]. eexists _, _. split; [reflexivity|]. split; reflexivity.
    + destruct (e_vars s') as [v|]; [eauto|]. destruct V as (_ & V). discriminate (V eq_refl).
    + eexists. split; reflexivity.
Qed.

(** ** A step of the session *)
Definition unharmed (db : option saved_data) : Prop := forall sd, db = Some sd -> healthy sd.
Lemma prev_unharmed sd sd' r : healthy sd -> get_prev_input_history sd = (sd', r) -> healthy sd'.
Proof.
  intros H. unfold get_prev_input_history. destruct (sd_pos sd) as [i|]; [|intros G; apply pair_equal_spec in G as [<- _]; exact H].
  assert (K : healthy (fst (sd_call (fun d => Ok (find_hist (d_hist d) i, d)) sd))).
  { unfold sd_call. destruct (sd_faults sd) as [|[|] fs] eqn:F; [|destruct H; rewrite F; left; reflexivity|]; cbn [fst]; [intros []|]. intros X. apply H. rewrite F. right. exact X. }
  destruct (sd_call _ sd) as [sd1 [[row|]|e|p]]; cbn [fst] in K; intros G; apply pair_equal_spec in G as [<- _]; exact K.
Qed.
Lemma earlier_unharmed h db h' db' r : unharmed db -> try_earlier h db = (h', db', r) -> unharmed db'.
Proof.
  intros H. unfold try_earlier. destruct (Nat.leb _ _); [|intros G; apply pair_equal_spec in G as [G _]; apply pair_equal_spec in G as [_ <-]; exact H].
  destruct (ih_exhausted h); [intros G; apply pair_equal_spec in G as [G _]; apply pair_equal_spec in G as [_ <-]; exact H|].
  destruct db as [sd|]; [|intros G; apply pair_equal_spec in G as [G _]; apply pair_equal_spec in G as [_ <-]; exact H].
  destruct (get_prev_input_history sd) as [sd' o] eqn:P. pose proof (prev_unharmed _ _ _ (H _ eq_refl) P) as H'.
  destruct o as [[i|]|e|p]; intros G; apply pair_equal_spec in G as [G _]; apply pair_equal_spec in G as [_ <-]; intros x [= <-]; exact H'.
Qed.
Lemma handle_event_unharmed ev l h db : unharmed db -> match handle_event ev l h db with (_, _, db', _) => unharmed db' end.
Proof.
  intros R. destruct ev as [code mods| |width|]; try exact R. cbn [handle_event]. destruct code as [c| | | | | | | | | |]; try exact R.
  - unfold handle_char. destruct (negb (is_ascii c)); [exact R|].
    destruct (N.eqb mods CONTROL && (N.eqb c 100 || N.eqb c 122 || N.eqb c 99)); [exact R|].
    destruct (N.eqb mods CONTROL && (N.eqb c 109 || N.eqb c 110)).
    { destruct (current_line h) as [line|e|p]; cbn [or_stop]; try exact R. destruct (paren_jump _ _) as [[|]|e|p]; exact R. }
    destruct (N.eqb mods SHIFT); [destruct (insert_char h (l_cursor l) _); exact R|]. destruct (negb (N.eqb mods 0)); [exact R|destruct (insert_char h (l_cursor l) _); exact R].
  - destruct (Nat.eqb (l_cursor l) 0); [exact R|]. destruct (remove_char h _); exact R.
  - destruct (current_line h); cbn [or_stop]; try exact R. destruct (Nat.leb _ _); [exact R|]. destruct (remove_char h _); exact R.
  - destruct (try_earlier h db) as [[h' db'] r] eqn:E. apply earlier_unharmed in E; [|exact R]. destruct r as [[|]|e|p]; try exact E. destruct (current_line h'); exact E.
  - destruct (try_later h) as [h' b]. destruct b; try exact R. destruct (current_line h'); exact R.
  - destruct (move_distance mods); exact R.
  - destruct (move_distance mods); [|exact R]. destruct (current_line h); exact R.
  - destruct (current_line h); exact R.
Qed.
(** The session evaluated from the lines alone, next to the real one. *)
Definition beside (se : session) (u : ui) : Prop := match_up se (session_of u) /\ u_count u = List.length (submitted u).
Lemma beside_still se u h' db' l0 : beside se u -> ih_internal h' = ih_internal (u_inputs u) -> same_file (u_db u) db' -> unharmed db' ->
  beside se (mkUi (u_args u) (u_vars u) db' h' l0 (u_count u)).
Proof.
  intros ((A & B & T & h1 & h2 & E1 & E2 & Ei) & N) I F U. split; [|unfold submitted in *; cbn [u_count u_inputs]; rewrite I; exact N].
  split; [exact A|]. split; [exact B|]. split.
  - cbn [session_of s_env e_db u_db] in *. destruct (e_db (s_env se)) as [x|], (u_db u) as [y|], db' as [z|]; try contradiction; [|exact Logic.I]. destruct T as (T1 & T2 & _). cbn in F. split; [congruence|]. split; [exact T2|apply U; reflexivity].
  - cbn in E2. injection E2 as <-. exists h1, h'. split; [exact E1|]. split; [reflexivity|congruence].
Qed.
Lemma beside_start pr tm se u : beside se u -> beside se (fst (fst (start_line pr tm u))) /\ submitted (fst (fst (start_line pr tm u))) = submitted u.
Proof.
  intros H. unfold start_line. cbv zeta. destruct (tm (u_count u)) as [[c r] w]. destruct (display _ _ _ _ _) as [[l' o]|e|p]; cbn [fst]; (split; [|reflexivity]); exact H.
Qed.
Lemma typed_line line h : @current_line runtime_error (mkIH (ih_internal h) (ih_db h) [Some line] 0 (ih_exhausted h)) = Ok line.
Proof. reflexivity. Qed.
Section Step.
  Context (pr : profile) (ord : nat -> list str -> list str) (tm : terminal).
  Hypothesis Ho : forall n, iterates (ord n).
  Lemma calculate_beside se u line : beside se u -> ui_good u -> shown (u_inputs u) = Ok line ->
    let r1 := calculate pr (ord (u_count u)) the_executor line (type_in line se) in
    let r2 := calculate pr (ord (u_count u)) the_executor line (session_of u) in
    snd r1 = snd r2 /\ match_up (fst r1) (fst r2) /\ (exists vars', e_vars (s_env (fst r2)) = Some vars') /\
    exists h, s_inputs (fst r2) = Some h /\ ih_internal h = submitted u ++ [line].
  Proof.
    intros ((A & B & T & h1 & h2 & E1 & E2 & Ei) & N) (G1 & G2 & _) L. cbv zeta. cbn [session_of s_args s_env e_vars e_db s_inputs] in A, B, T, E2.
    injection E2 as <-. unfold type_in. rewrite E1. destruct se as [a i [v d]]. cbn [s_args s_env s_inputs e_vars e_db] in *. subst a i v. unfold session_of.
    pose proof (calculate_match pr (ord (u_count u)) line (u_args u) (u_vars u) (u_inputs u) (mkIH (ih_internal h1) (ih_db h1) [Some line] 0 (ih_exhausted h1)) (u_db u) d (Ho _) G1 G2 L eq_refl (eq_sym Ei)) as M.
    destruct M as (M1 & M2 & M3 & M4).
    { destruct (u_db u), d; try contradiction; [|exact Logic.I]. destruct T as (T1 & T2 & T3). split; [congruence|auto]. }
    split; [symmetry; exact M1|]. split; [|split; [exact M3|exact M4]]. clear - M2. destruct M2 as (A & B & T & h1' & h2' & E1 & E2 & Ei). split; [congruence|]. split; [congruence|]. split.
    - revert T. generalize (e_db (s_env (fst (calculate pr (ord (u_count u)) the_executor line (mkSession (u_args u) (Some (u_inputs u)) (mkEnv (Some (u_vars u)) (u_db u))))))) as p, (e_db (s_env (fst (calculate pr (ord (u_count u)) the_executor line (mkSession (u_args u) (Some (mkIH (ih_internal h1) (ih_db h1) [Some line] 0 (ih_exhausted h1))) (mkEnv (Some (u_vars u)) d)))))) as q.
      intros q p T. destruct p, q; cbn in *; try tauto. destruct T as (T1 & T2 & T3). split; [congruence|auto].
    - exists h2', h1'. auto.
  Qed.
  Lemma step_beside ev se u : beside se u -> ui_good u ->
    let u' := fst (fst (ui_step pr ord the_executor tm ev u)) in
    (beside se u' /\ submitted u' = submitted u /\ ((exists mods, ev = EvKey KEnter mods) -> snd (ui_step pr ord the_executor tm ev u) <> Waiting)) \/
    (exists mods line, ev = EvKey KEnter mods /\ shown (u_inputs u) = Ok line /\ submitted u' = submitted u ++ [line] /\
       beside (fst (calculate pr (ord (u_count u)) the_executor line (type_in line se))) u').
  Proof.
    intros H G. cbv zeta. unfold ui_step.
    pose proof (handle_event_file ev (u_line u) (u_inputs u) (u_db u)) as F.
    pose proof (handle_event_internal ev (u_line u) (u_inputs u) (u_db u)) as I.
    assert (U0 : unharmed (u_db u)).
    { destruct H as ((_ & _ & T & _) & _). cbn in T. intros sd E. rewrite E in T. destruct (e_db (s_env se)); [apply T|contradiction]. }
    pose proof (handle_event_unharmed ev (u_line u) (u_inputs u) (u_db u) U0) as U.
    destruct (handle_event ev (u_line u) (u_inputs u) (u_db u)) as [[[l' h'] db'] act] eqn:Hv. cbn [internal_kept] in I.
    assert (K : forall l0, beside se (mkUi (u_args u) (u_vars u) db' h' l0 (u_count u))) by (intros l0; apply beside_still; assumption).
    assert (NE : (exists mods, ev = EvKey KEnter mods) -> act = AEnter) by (intros (mods & ->); cbn [handle_event] in Hv; congruence).
    destruct act; cbn [fst snd];
      try (left; split; [apply K|]; split; [exact I|]; intros X; discriminate (NE X)).
    - left. destruct (display _ _ _ _ _) as [[l'' out]|e|p]; cbn [fst snd]; (split; [apply K|]; split; [exact I|]; intros X; discriminate (NE X)).
    - apply enter_only in Hv as ((mods & ->) & -> & -> & ->). rewrite ui_eta in *. clear K. unfold finish_line. cbv zeta.
      assert (St : beside se u /\ submitted u = submitted u) by auto.
      destruct (display _ _ _ _ _) as [[l1 out1]|e|p]; cbn [fst snd]; [|left; split; [exact H|]; split; [reflexivity|]; intros _; discriminate..].
      destruct (current_line (u_inputs u)) as [line|e|p] eqn:L; cbn [fst snd]; [|left; split; [exact H|]; split; [reflexivity|]; intros _; discriminate..].
      destruct (calculate_beside se u line H G L) as (Q1 & Q2 & (vars' & Q3) & h & Q4 & Q5).
      change (mkSession (u_args u) (Some (u_inputs u)) (mkEnv (Some (u_vars u)) (u_db u))) with (session_of u).
      destruct (calculate pr (ord (u_count u)) the_executor line (session_of u)) as [se' r] eqn:C. cbn [fst snd] in *.
      rewrite Q3, Q4.
      assert (Bu : forall l0, beside (fst (calculate pr (ord (u_count u)) the_executor line (type_in line se))) (mkUi (s_args se') vars' (e_db (s_env se')) h l0 (S (u_count u)))).
      { intros l0. split.
        - unfold session_of. cbn [u_args u_inputs u_vars u_db]. rewrite <- Q3, <- Q4. destruct se' as [a' i' [v' d']]. exact Q2.
        - unfold submitted in *. cbn [u_count u_inputs]. rewrite Q5, app_length. destruct H as (_ & N). cbn. unfold submitted in N. lia. }
      right. exists mods, line. split; [reflexivity|]. split; [exact L|].
      destruct (render r) as [text|e|p]; cbn [fst]; [|split; [exact Q5|apply Bu]..].
      match goal with |- context [start_line pr tm ?u0] => pose proof (beside_start pr tm _ u0 (Bu _)) as SI; destruct (start_line pr tm u0) as [[u'' out3] st] end.
      cbn [fst] in *. destruct SI as (S1 & S2). split; [rewrite S2; exact Q5|exact S1].
  Qed.
End Step.

(** ** Whole sessions *)
Section Run.
  Context (pr : profile) (ord : nat -> list str -> list str).
  Hypothesis Ho : forall n, iterates (ord n).
  Lemma run_beside tm evs : forall se u, beside se u -> ui_good u ->
    let u' := fst (fst (run_events pr ord the_executor tm evs u)) in
    exists lines, submitted u' = submitted u ++ lines /\ beside (evaluated pr ord the_executor (u_count u) lines se) u'.
  Proof.
    induction evs as [|ev evs IH]; intros se u H G; cbv zeta; [exists []; rewrite app_nil_r; split; [reflexivity|exact H]|]. cbn [run_events].
    pose proof (ui_step_good pr ord the_executor tm ev u Ho G) as G1. pose proof (step_beside pr ord tm Ho ev se u H G) as S1. cbv zeta in S1.
    destruct (ui_step pr ord the_executor tm ev u) as [[u1 out] st]. cbn [fst snd] in *.
    assert (Go : forall se1 n more, beside se1 u1 -> submitted u1 = submitted u ++ more -> n = u_count u1 ->
      (forall rest, evaluated pr ord the_executor (u_count u) (more ++ rest) se = evaluated pr ord the_executor n rest se1) ->
      exists lines, submitted (fst (fst (match st with Waiting => let '(u'', out', st') := run_events pr ord the_executor tm evs u1 in (u'', out ++ out', st') | _ => (u1, out, st) end))) = submitted u ++ lines /\
        beside (evaluated pr ord the_executor (u_count u) lines se) (fst (fst (match st with Waiting => let '(u'', out', st') := run_events pr ord the_executor tm evs u1 in (u'', out ++ out', st') | _ => (u1, out, st) end)))).
    { intros se1 n more B Es -> Ev. assert (Stop : exists lines, submitted u1 = submitted u ++ lines /\ beside (evaluated pr ord the_executor (u_count u) lines se) u1).
      { exists more. split; [exact Es|]. rewrite <- (app_nil_r more), Ev. exact B. }
      destruct st; try exact Stop. destruct (IH se1 u1 B G1) as (lines & E & B'). destruct (run_events pr ord the_executor tm evs u1) as [[u2 out2] st2]. cbn [fst] in *.
      exists (more ++ lines). split; [rewrite E, Es, app_assoc; reflexivity|]. rewrite Ev. exact B'. }
    destruct S1 as [(B & E & _)|(mods & line & -> & L & E & B)].
    - pose proof (Go se (u_count u1) [] B ltac:(rewrite app_nil_r; exact E) eq_refl) as K.
      assert (N : u_count u1 = u_count u) by (destruct B as (_ & N1); destruct H as (_ & N2); congruence). rewrite N in K. specialize (K (fun _ => eq_refl)). destruct st; exact K.
    - pose proof (Go _ (u_count u1) [line] B E eq_refl) as K.
      assert (N : u_count u1 = S (u_count u)) by (destruct B as (_ & N1); destruct H as (_ & N2); rewrite N1, E, app_length, N2; cbn; lia). rewrite N in K. specialize (K (fun _ => eq_refl)). destruct st; exact K.
  Qed.
  Lemma told_beside : forall evs u g replies u' g', told pr ord the_executor evs u g replies u' g' -> forall se, beside se u -> ui_good u ->
    exists se', dialogue pr ord the_executor (u_count u) se (map fst replies) se' replies /\ submitted u' = submitted u ++ map fst replies /\ beside se' u'.
  Proof.
    induction 1 as [u g|ev evs u g u1 g1 replies u2 g2 Ne Lv T IH|mods evs u g u1 g1 line se1 r text replies u2 g2 L C Rt Lv T IH]; intros se H G.
    - exists se. split; [constructor|]. rewrite app_nil_r. auto.
    - unfold live_step in Lv. set (tm := answering _) in Lv. pose proof (ui_step_good pr ord the_executor tm ev u Ho G) as G1.
      destruct (step_beside pr ord tm Ho ev se u H G) as [(B & E & _)|(mods & line & -> & _)]; [|destruct (Ne mods eq_refl)].
      destruct (ui_step pr ord the_executor tm ev u) as [[u1' out] st]. cbn [fst] in *. injection Lv as <- <- ->.
      assert (N : u_count u1' = u_count u) by (destruct B as (_ & N1); destruct H as (_ & N2); congruence).
      destruct (IH se B G1) as (se' & D & Es & B'). exists se'. rewrite N in D. split; [exact D|]. split; [congruence|exact B'].
    - unfold live_step in Lv. set (tm := answering _) in Lv. pose proof (ui_step_good pr ord the_executor tm (EvKey KEnter mods) u Ho G) as G1.
      destruct (step_beside pr ord tm Ho (EvKey KEnter mods) se u H G) as [(_ & _ & X)|(mods' & line' & _ & L' & E & B)].
      { exfalso. apply X; [eauto|]. destruct (ui_step pr ord the_executor tm (EvKey KEnter mods) u) as [[u1' out] st]. injection Lv as _ _ ->. reflexivity. }
      destruct (calculate_beside pr ord Ho se u line' H G L') as (Q1 & Q2 & _). assert (line' = line) as -> by (rewrite L in L'; apply ok_inj in L'; congruence).
      rewrite C in Q1, Q2. cbn [fst snd] in Q1, Q2.
      destruct (calculate pr (ord (u_count u)) the_executor line (type_in line se)) as [se2 r2] eqn:C2. cbn [fst snd] in *. subst r2.
      destruct (ui_step pr ord the_executor tm (EvKey KEnter mods) u) as [[u1' out] st]. cbn [fst] in *. injection Lv as <- <- ->.
      assert (N : u_count u1' = S (u_count u)) by (destruct B as (_ & N1); destruct H as (_ & N2); rewrite N1, E, app_length, N2; cbn; lia).
      destruct (IH se2 B G1) as (se' & D & Es & B'). exists se'. rewrite N in D. cbn [map fst]. split; [econstructor; eassumption|]. split; [rewrite Es, E, <- app_assoc; reflexivity|exact B'].
  Qed.
  Lemma start_beside a db0 db tm : twins db0 db ->
    beside (new_session a db0) (fst (fst (interactive_start pr tm a db))) /\ submitted (fst (fst (interactive_start pr tm a db))) = [] /\ u_count (fst (fst (interactive_start pr tm a db))) = 0.
  Proof.
    intros T. unfold interactive_start. match goal with |- context [start_line pr tm ?u0] => pose proof (beside_start pr tm (new_session a db0) u0) as S1 end.
    destruct S1 as (S1 & S2).
    - split; [|reflexivity]. split; [reflexivity|]. split; [reflexivity|]. split; [exact T|]. eexists _, _. split; [reflexivity|]. split; [reflexivity|]. reflexivity.
    - split; [exact S1|]. split; [rewrite S2; reflexivity|]. destruct S1 as (_ & N). rewrite N, S2. reflexivity.
  Qed.
  Lemma start_good a db tm : valid_settings a -> (forall sd, db = Some sd -> program_file (sd_db sd)) -> ui_good (fst (fst (interactive_start pr tm a db))).
  Proof.
    intros Ha Hd. pose proof (interactive_good pr ord the_executor tm a db [] Ho Ha Hd) as K. unfold interactive in K. destruct (interactive_start pr tm a db) as [[u out] st]. destruct st; exact K.
  Qed.
  Lemma interactive_beside a db0 db tm evs : twins db0 db -> valid_settings a -> (forall sd, db = Some sd -> program_file (sd_db sd)) ->
    let u := fst (fst (interactive pr ord the_executor tm a db evs)) in beside (evaluated pr ord the_executor 0 (submitted u) (new_session a db0)) u.
  Proof.
    intros T Ha Hd. cbv zeta. unfold interactive. destruct (start_beside a db0 db tm T) as (B & E & N). pose proof (start_good a db tm Ha Hd) as G.
    destruct (interactive_start pr tm a db) as [[u out] st]. cbn [fst] in *.
    assert (Stop : beside (evaluated pr ord the_executor 0 (submitted u) (new_session a db0)) u) by (rewrite E; exact B).
    destruct st; try exact Stop. destruct (run_beside tm evs _ u B G) as (lines & E' & B'). rewrite E in E'. cbn [app] in E'. rewrite N in B'.
    destruct (run_events pr ord the_executor tm evs u) as [[u' out'] st']. cbn [fst] in *. rewrite E'. exact B'.
  Qed.
  Lemma beside_comes se u : beside se u -> comes_to se u.
  Proof.
    intros ((A & B & T & _) & _). split; [exact A|]. split; [exact B|]. cbn in T. destruct (e_db (s_env se)), (u_db u); try contradiction; [|reflexivity]. cbn. destruct T as (-> & _). reflexivity.
  Qed.
  Lemma told_lines a db evs g replies u g' : valid_settings a -> working_database db -> told_session pr ord the_executor a db evs g replies u g' ->
    submitted u = map fst replies /\ exists se', dialogue pr ord the_executor 0 (new_session a db) (submitted u) se' replies /\ comes_to se' u.
  Proof.
    intros Ha Hd (u0 & out & S0 & T).
    assert (Tw : twins db db) by (destruct db as [sd|]; [|exact Logic.I]; destruct (Hd sd eq_refl) as (_ & F); split; [reflexivity|split; exact F]).
    destruct (start_beside a db db (answering g) Tw) as (B & E & N). pose proof (start_good a db (answering g) Ha (fun sd X => proj1 (Hd sd X))) as G. rewrite S0 in B, E, N, G. cbn [fst] in *.
    destruct (told_beside _ _ _ _ _ _ T _ B G) as (se' & D & Es & B'). rewrite E in Es. cbn [app] in Es. rewrite N in D. split; [exact Es|]. exists se'. rewrite Es. split; [exact D|apply beside_comes, B'].
  Qed.
End Run.
