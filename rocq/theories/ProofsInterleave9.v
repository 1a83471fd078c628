(** ProofsInterleave9.v -- interleaved calls (C89-C91): one line within a run. *)
From Verif Require Import Base Position Num TokenTypes Errors Token Operations SavedData Variables InputHistory
  SyntaxTree Commands Calculate Editor Sessions Main Io Together Interleave SpecGrammar SpecEval SpecHistory SpecSyntax SpecEditor SpecCalc SpecSession SpecData SpecMain SpecTogether SpecInterleave.
From Verif Require Import ProofsNum ProofsLex ProofsEval ProofsDb ProofsDb2 ProofsDb3 ProofsDb4 ProofsEditor4 ProofsCalc ProofsCalc2 ProofsCalc3 ProofsCalc4 ProofsCalc5 ProofsCalc6 ProofsCalc7 ProofsCalc8 ProofsCalc9 ProofsCalc10 ProofsCalm ProofsCalm2 ProofsCommands2 ProofsTerminal8 ProofsMain ProofsMain2 ProofsTogether ProofsInterleave ProofsInterleave2 ProofsInterleave3 ProofsInterleave4 ProofsInterleave5 ProofsInterleave6 ProofsInterleave7 ProofsInterleave8 ProofsSession.
From Coq Require Import String Lia.
Local Open Scope nat_scope.
Local Open Scope list_scope.

Lemma made_program d cap : made_file d -> capacity d cap -> program_file d.
Proof.
  intros M C. destruct (sd_open [] d) as [d' o] eqn:O. destruct (open_made _ _ _ _ M O) as [([=] & _)|(_ & sd & -> & Ed & P & _)].
  replace d with d'; [exact P|]. destruct M as (w & R & <-). destruct (reachable_file w R) as [(F & _)|(st & Rp)]; [rewrite F in C; discriminate C|].
  unfold sd_open, sd_call in O. cbn [sd_faults sd_db sd_pos] in O. rewrite (open_rep _ _ Rp) in O. apply pair_equal_spec in O as [<- _]. reflexivity.
Qed.
Lemma start_line_vars pr tm u : u_vars (fst (fst (start_line pr tm u))) = u_vars u.
Proof. unfold start_line. destruct (display _ _ _ _ _) as [[l out]|e|p]; reflexivity. Qed.
Lemma removelast_two {A} (l : list A) l' : l' <> [] -> removelast (l ++ l') = l ++ removelast l'.
Proof. apply removelast_app. Qed.

Section Line.
  Context (pr : profile) (ord : nat -> nat -> list str -> list str) (x : executor) (tm : nat -> terminal).
  Context (Ho : forall i n, iterates (ord i n)).
  Notation rstep := (room_step pr ord x tm).
  Notation rrun := (room_run pr ord x tm).
  Notation files := (room_files pr ord x tm).
  Notation events := (history_events pr ord x tm).
  Notation at_ := (placed pr ord x tm).

  Lemma rrun_app a b w : rrun (a ++ b) w = rrun b (rrun a w).
  Proof. revert w. induction a as [|tn a IH]; intros w; [reflexivity|]. cbn. apply IH. Qed.
  Lemma placed_split i l1 m l2 turns : forall w, at_ i (l1 ++ m :: l2) turns w ->
    exists a b, turns = a ++ Goes i :: b /\ m_pre m = r_file (rrun a w) /\ m_post m = r_file (rrun (a ++ [Goes i]) w) /\
      (exists u k, r_seat (rrun a w) i = Some (Working u (Ask (m_call m) k))) /\ at_ i l2 b (rrun (a ++ [Goes i]) w).
  Proof.
    revert l1. induction turns as [|tn turns IH]; intros l1 w H.
    - inversion H as [w0 E| |]. destruct l1; discriminate.
    - inversion H as [|l0 tn0 rest0 w0 N P|m0 l0 rest0 w0 u k S1 S2 S3 P]; subst.
      + destruct (IH _ _ P) as (a & b & -> & K). exists (tn :: a), b. split; [reflexivity|exact K].
      + destruct l1 as [|m1 l1]; cbn [app] in *.
        * injection H0 as -> ->. exists [], turns. split; [reflexivity|]. cbn. split; [exact S2|]. split; [exact S3|]. split; [eauto|exact P].
        * injection H0 as -> ->. destruct (IH _ _ P) as (a & b & -> & K). exists (Goes i :: a), b. split; [reflexivity|exact K].
  Qed.
  Lemma file_before i a b w : In (r_file (rrun a w)) (removelast (files (a ++ Goes i :: b) w)).
  Proof.
    rewrite files_app. destruct (files_head pr ord x tm b (fst (rstep (Goes i) (rrun a w)))) as (fs & E). cbn [room_files]. rewrite E.
    rewrite removelast_app by discriminate. apply in_or_app. right. left. reflexivity.
  Qed.
  Lemma files_last a tn w : removelast (files (a ++ [tn]) w) = files a w.
  Proof.
    revert w. induction a as [|t a IH]; intros w; [reflexivity|]. cbn [app room_files]. destruct (files_head pr ord x tm (a ++ [tn]) (fst (rstep t w))) as (fs & E).
    rewrite <- IH. rewrite E. reflexivity.
  Qed.
  Lemma placed_file i l turns w m : at_ i l turns w -> In m l -> In (m_pre m) (removelast (files turns w)).
  Proof. intros H I. apply in_split in I as (l1 & l2 & ->). destruct (placed_split _ _ _ _ _ _ H) as (a & b & -> & -> & _). apply file_before. Qed.
  Lemma recorded_app i a b : recorded_by i (a ++ b) = recorded_by i a ++ recorded_by i b.
  Proof. apply flat_map_app. Qed.
  Definition recorded_in (l : list moment) : list str := flat_map (fun m => match m_call m with AddInput t => [t] | _ => [] end) l.
  Lemma placed_recorded i l turns w : at_ i l turns w -> recorded_by i (events turns w) = recorded_in l.
  Proof.
    induction 1 as [w|l tn rest w N H IH|m l rest w u k S1 S2 S3 H IH]; [reflexivity|..]; cbn [history_events]; rewrite recorded_app, IH.
    - replace (recorded_by i (history_event_of tn w)) with (@nil str); [reflexivity|]. destruct tn as [j a wt|j ev|j]; try reflexivity. cbn [history_event_of].
      destruct (r_seat w j) as [[u e|u [ans|c k]]|]; try reflexivity. destruct c; try reflexivity. cbn. destruct (Nat.eqb_spec j i) as [->|]; [congruence|reflexivity].
    - cbn [history_event_of recorded_in flat_map]. rewrite S1. f_equal. destruct (m_call m); try reflexivity. cbn. rewrite Nat.eqb_refl. reflexivity.
  Qed.

  (** ** The line *)
  Lemma replied_of u u' e out r : match r with
    | Panic p => e = Panicked p
    | _ => exists text rest, render r = Ok text /\ out = print_output (a_alternate_screen (u_args u)) text ++ rest /\ u_count u' = S (u_count u)
    end -> replied u u' e out r.
  Proof.
    assert (K : (exists text rest, render r = Ok text /\ out = print_output (a_alternate_screen (u_args u)) text ++ rest /\ u_count u' = S (u_count u)) ->
      exists text rows rest, reply_text r text /\ rows_of text rows /\
           out = flat_map (row_output (a_alternate_screen (u_args u))) rows ++ rest /\ u_count u' = S (u_count u)).
    { intros (text & rest & R & O & C). exists text, (split_lines text []), rest. split; [apply reply_render; exact R|]. split; [|split; [exact O|exact C]].
      destruct (split_lines_spec text [] (fun x => x)) as (A & B & J). split; [exact A|]. split; [exact B|]. symmetry. exact J. }
    unfold replied. destruct r as [t|e0|p]; auto.
  Qed.
  Lemma answered u1 ans u' e out i : answer_line pr (tm i) u1 ans = (Resting u' e, out) ->
    let '(a', _, vars', r) := ans in u_args u' = a' /\ u_vars u' = vars' /\
    match r with
    | Panic p => e = Panicked p
    | _ => exists text rest, render r = Ok text /\ out = print_output (a_alternate_screen (u_args u1)) text ++ rest /\ u_count u' = S (u_count u1)
    end.
  Proof.
    destruct ans as [[[a' h'] vars'] r]. unfold answer_line. intros E.
    assert (R : (exists text, render r = Ok text /\ (forall p, r <> Panic p)) \/ exists p, r = Panic p) by (destruct r as [t|[m|e0]|p]; [left; eexists; split; [reflexivity|discriminate]..|right; eauto]).
    destruct R as [(text & R & Np)|(p & ->)].
    - rewrite R in E. set (u2 := mkUi a' vars' (u_db u1) h' (u_line u1) (S (u_count u1))) in *.
      pose proof (start_line_args pr (tm i) u2) as A. pose proof (start_line_vars pr (tm i) u2) as V. pose proof (start_line_count pr (tm i) u2) as Ct.
      destruct (start_line pr (tm i) u2) as [[u3 out3] st]. cbn [fst] in *. apply pair_equal_spec in E as [E <-]. injection E as <- _. split; [exact A|]. split; [exact V|].
      destruct r as [t|e0|p]; [..|destruct (Np p eq_refl)]; (eexists; eexists; split; [exact R|]; split; [reflexivity|exact Ct]).
    - cbn [render] in E. apply pair_equal_spec in E as [E <-]. injection E as <- <-. cbn. auto.
  Qed.

  (** Values that fit. *)
  Lemma known_values files0 m0 l vars missing : known m0 l vars -> lacking l vars missing -> l <> [] -> (forall m, In m l -> In (m_pre m) files0) -> (forall m, In m l -> program_file (m_pre m)) ->
    exists val, seen_at files0 m0 val /\ compatible vars val /\ (forall y, missing = Some y -> val y = None).
  Proof.
    intros (V & K) L N Fs Ps. destruct l as [|m1 l]; [congruence|]. destruct (file_store _ (Ps m1 (or_introl eq_refl))) as (st & R).
    exists (fun y => match vs_get vars y with Some v => Some v | None =>
      if match missing with Some z => str_eqb y z | None => false end then None else option_map fst (st_vars st y) end).
    split; [|split].
    - intros y. specialize (K y). destruct (vs_get m0 y) as [v|]; [rewrite K; reflexivity|]. destruct (vs_get vars y) as [v|].
      + destruct (K v eq_refl) as (m & I & D). exists (m_pre m). auto.
      + destruct (match missing with Some z => str_eqb y z | None => false end) eqn:Em.
        * destruct missing as [z|]; [|discriminate Em]. apply str_eqb_eq in Em as ->. destruct (L z eq_refl) as (_ & m & I & D). exists (m_pre m). auto.
        * exists (m_pre m1). split; [apply Fs; left; reflexivity|]. destruct (rp_vars _ _ R) as (_ & B & Kv). destruct (st_vars st y) as [[q id]|] eqn:F; cbn [option_map fst].
          -- apply Kv in F as (r & I & Nm & H & _). exists r. auto.
          -- intros r I Nm. destruct (B r I) as (q & H). assert (X : st_vars st y = Some (q, v_used r)) by (apply Kv; eauto). congruence.
    - intros y v E. rewrite E. reflexivity.
    - intros y E. destruct (L y E) as (-> & _). rewrite E, str_eqb_refl. reflexivity.
  Qed.

  Lemma wp_well {A} (t : io A) : forall l, wp (fun l' _ => exists l'', l' = l ++ l'' /\ Forall well l'') l t.
  Proof.
    induction t as [a|c k IH]; intros l; [exists []; split; [symmetry; apply app_nil_r|constructor]|]. cbn [wp]. intros m W _. eapply wp_weaken; [apply IH|].
    cbn. intros l' _ (l'' & -> & F). exists (m :: l''). rewrite <- app_assoc. split; [reflexivity|]. constructor; assumption.
  Qed.
  (** Everything about a line being processed. *)
  Lemma line_facts i mods between w u u' e out :
    calm_room w -> Forall proper_turn between -> Forall calm_turn between -> processes pr ord x tm w i mods between u u' e out ->
    exists line l id r lm, shown (u_inputs u) = Ok line /\ l <> [] /\ Forall well l /\ at_ i l (line_turns i mods between) w /\
      line_post pr (u_args u) (u_vars u) line l lm /\ lm = (u_args u', snd (fst (fst lm)), u_vars u', r) /\
      replied u u' e out r /\ rt_post id l r /\
      (exists m0 l2, l = m0 :: l2 /\ m_call m0 = AddInput line /\ (exists old, inputs_of (m_post m0) = old ++ [(id, line)]) /\ Forall (fun m => not_recording (m_call m)) l2) /\
      (exists l0 m, l = l0 ++ [m] /\ m_post m = r_file (rrun (line_turns i mods between) w)) /\
      forall ts, is_expression (a_radix (u_args u)) line ts -> u_args u' = u_args u /\ comes_to pr (u_args u) ts (u_vars u) id l (u_vars u') r.
  Proof.
    intros Cw Pp Cc Pr. pose proof Pr as (Sk & _). destruct (proj2 (proj1 Cw) i _ Sk) as (_ & G). specialize (G eq_refl). destruct (parts_of_good _ G) as (A & V). cbn [u_args u_vars with_file] in A, V.
    destruct (process_trace pr ord x tm Ho i (fun l ans => line_post pr (u_args u) (u_vars u) (match shown (u_inputs u) with Ok line => line | _ => [] end) l ans /\ Forall well l) mods between w u u' e out Cw Pp Cc Pr) as (line & L & T).
    rewrite L in T. destruct T as (u1 & sd1 & ans & l0 & m & (Lp & Wl) & Su & Ed & E1 & E2 & Ea & Pl).
    { eapply wp_weaken; [apply wp_and; [apply (wp_line pr (ord i (u_count u)) x line (u_args u) (u_inputs u) (u_vars u) A V L)|apply wp_well]|]. cbn. intros l' a' (X & l'' & -> & F). auto. }
    pose proof Lp as (m0 & l2 & id & a' & h' & vars' & r & El & C0 & Old & Nr & -> & Rt & Ex).
    pose proof (answered _ _ _ _ _ _ Ea) as (Aa & Av & Ar). destruct Su as (S1 & S2 & S3 & S4 & S5).
    exists line, (l0 ++ [m]), id, r, (a', h', vars', r). split; [exact L|]. split; [destruct l0; discriminate|]. split; [exact Wl|]. split; [exact Pl|]. split; [exact Lp|].
    split; [cbn; congruence|]. split; [apply replied_of; rewrite S1, S5; exact Ar|]. split; [exact Rt|]. split; [exists m0, l2; auto|]. split; [exists l0, m; auto|].
    intros ts It. rewrite Aa, Av. apply Ex, It.
  Qed.
End Line.
