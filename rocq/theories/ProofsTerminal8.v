(** ProofsTerminal8.v -- a session on a terminal is a session. *)
From Verif Require Import Base Position Num TokenTypes Errors Token SavedData Variables InputHistory
  SyntaxTree Commands Calculate Editor Sessions SpecEval SpecHistory SpecEditor SpecCalc SpecSession SpecMain SpecTerminal.
From Verif Require Import ProofsEval ProofsEditor3 ProofsEditor4 ProofsCalc4 ProofsSession ProofsTerminal ProofsTerminal3 ProofsTerminal6 ProofsTerminal7.
From Coq Require Import String Lia.
Local Open Scope nat_scope.
Local Open Scope list_scope.

Lemma start_line_count pr tm u : u_count (fst (fst (start_line pr tm u))) = u_count u.
Proof. unfold start_line. cbv zeta. destruct (display _ _ _ _ _) as [[? ?]|?|?]; reflexivity. Qed.
Lemma start_line_same pr tm tm' u : tm (u_count u) = tm' (u_count u) -> start_line pr tm u = start_line pr tm' u.
Proof. intros E. unfold start_line. rewrite E. reflexivity. Qed.
(** A step consults the terminal only about the line it begins. *)
Lemma ui_step_same pr ord x tm tm' ev u : (forall n, u_count u <= n -> n <= u_count (fst (fst (ui_step pr ord x tm ev u))) -> tm' n = tm n) ->
  u_count u <= u_count (fst (fst (ui_step pr ord x tm ev u))) /\ ui_step pr ord x tm' ev u = ui_step pr ord x tm ev u.
Proof.
  intros H. unfold ui_step in *. destruct (handle_event ev (u_line u) (u_inputs u) (u_db u)) as [[[l' h'] db'] act]. destruct act; cbn [fst u_count] in *; try (split; [lia|reflexivity]).
  - destruct (display _ _ _ _ _) as [[? ?]|?|?]; cbn [fst u_count]; split; try lia; reflexivity.
  - unfold finish_line in *. cbv zeta in *. cbn [u_args u_vars u_db u_inputs u_line u_count] in *.
    destruct (display _ _ _ _ _) as [[? ?]|?|?]; cbn [fst u_count] in *; try (split; [lia|reflexivity]).
    destruct (current_line h') as [line|?|?]; cbn [fst u_count] in *; try (split; [lia|reflexivity]).
    destruct (calculate _ _ _ _ _) as [se' r]. destruct (render r) as [text|?|?]; cbn [fst u_count] in *; try (split; [lia|reflexivity]).
    match type of H with context [start_line pr tm ?u0] => pose proof (start_line_count pr tm u0) as Cn; pose proof (start_line_same pr tm' tm u0) as Sm end.
    destruct (start_line pr tm _) as [[u3 out3] st3]. cbn [fst u_count] in *. split; [lia|]. rewrite Sm; [reflexivity|]. apply H; lia.
Qed.
Lemma live_run pr ord x w evs : forall u g u' g' st tm0, onscreen g -> g_width g = w -> (forall n, snd (tm0 n) = w) -> live_events pr ord x evs u g = (u', g', st) ->
  exists tm out, (forall n, n <= u_count u -> tm n = tm0 n) /\ (forall n, snd (tm n) = w) /\ run_events pr ord x tm evs u = (u', out, st) /\ g' = grid_after out g.
Proof.
  induction evs as [|ev evs IH]; intros u g u' g' st tm0 On Gw W0 L; cbn [live_events run_events] in *.
  - apply pair_equal_spec in L as [L <-]. apply pair_equal_spec in L as [<- <-]. exists tm0, []. split; [auto|]. split; [exact W0|]. split; reflexivity.
  - destruct (live_step pr ord x ev u g) as [[u1 g1] st1] eqn:Ls. unfold live_step in Ls. cbv zeta in Ls. match type of Ls with context [answering ?k] => set (ga := k) in Ls end.
    assert (Wa : g_width ga = w) by (rewrite <- Gw; apply grid_size; exact On).
    destruct (ui_step pr ord x (answering ga) ev u) as [[u2 out1] st2] eqn:Us. apply pair_equal_spec in Ls as [Ls <-]. apply pair_equal_spec in Ls as [<- <-].
    set (tm1 := fun n => if Nat.leb n (u_count u) then tm0 n else answering ga n).
    assert (W1 : forall n, snd (tm1 n) = w) by (intros n; unfold tm1; destruct (Nat.leb _ _); [apply W0|exact Wa]).
    assert (On1 : onscreen (grid_after out1 g)) by (apply grid_size; exact On).
    assert (Gw1 : g_width (grid_after out1 g) = w) by (rewrite <- Gw; apply grid_size; exact On).
    assert (Us' : forall tm, (forall n, u_count u < n -> n <= u_count u2 -> tm n = answering ga n) -> ui_step pr ord x tm ev u = (u2, out1, st2) /\ u_count u <= u_count u2).
    { intros tm K. set (tm2 := fun n => if Nat.leb n (u_count u) then answering ga n else tm n).
      assert (A : forall n, u_count u < n -> tm2 n = tm n) by (intros n Hn; unfold tm2; destruct (Nat.leb_spec n (u_count u)); [lia|reflexivity]).
      destruct (ui_step_same pr ord x (answering ga) tm2 ev u) as [B E2].
      { intros n H1 H2. rewrite Us in H2. cbn [fst] in H2. unfold tm2. destruct (Nat.leb_spec n (u_count u)); [reflexivity|]. apply K; lia. }
      rewrite Us in B, E2. cbn [fst] in B. split; [|exact B]. rewrite <- E2.
      (* the value at the line already begun is not consulted *)
      clear -A. unfold ui_step. destruct (handle_event ev (u_line u) (u_inputs u) (u_db u)) as [[[l' h'] db'] act]. destruct act; try reflexivity.
      unfold finish_line. cbv zeta. cbn [u_args u_vars u_db u_inputs u_line u_count]. destruct (display _ _ _ _ _) as [[? ?]|?|?]; try reflexivity. destruct (current_line h') as [line|?|?]; try reflexivity.
      destruct (calculate _ _ _ _ _) as [se' r]. destruct (render r) as [text|?|?]; try reflexivity. rewrite (start_line_same pr tm tm2); [reflexivity|]. symmetry. apply A. cbn. lia. }
    destruct st2; try (apply pair_equal_spec in L as [L <-]; apply pair_equal_spec in L as [<- <-]; exists tm1, out1; split; [intros n Hn; unfold tm1; destruct (Nat.leb_spec n (u_count u)); [reflexivity|lia]|]; split; [exact W1|];
      destruct (Us' tm1) as [E _]; [intros n H1 _; unfold tm1; destruct (Nat.leb_spec n (u_count u)); [lia|reflexivity]|]; rewrite E; split; reflexivity).
    destruct (IH u2 (grid_after out1 g) u' g' st tm1 On1 Gw1 W1 L) as (tm & out & Ag & W & R & ->).
    destruct (Us' tm) as [E Le].
    { intros n H1 H2. rewrite Ag by exact H2. unfold tm1. destruct (Nat.leb_spec n (u_count u)); [lia|reflexivity]. }
    exists tm, (out1 ++ out). split; [intros n Hn; rewrite Ag by lia; unfold tm1; destruct (Nat.leb_spec n (u_count u)); [reflexivity|lia]|]. split; [exact W|]. rewrite E, R. split; [reflexivity|]. rewrite grid_app. reflexivity.
Qed.
Lemma live_interactive pr ord x a db evs g u g' st : g_row g < g_height g -> live pr ord x a db evs g = (u, g', st) ->
  exists tm out, tm 0 = (cursor_of g, g_width g) /\ (forall n, snd (tm n) = g_width g) /\ interactive pr ord x tm a db evs = (u, out, st) /\ g' = grid_after out g.
Proof.
  intros On L. unfold live in L. destruct (interactive_start pr (answering g) a db) as [[u0 out0] st0] eqn:S0.
  assert (St : forall tm, tm 0 = (cursor_of g, g_width g) -> interactive_start pr tm a db = (u0, out0, st0)).
  { intros tm E. rewrite <- S0. unfold interactive_start. apply start_line_same. exact E. }
  assert (C0 : u_count u0 = 0).
  { pose proof (start_line_count pr (answering g) (mkUi a vs_new db (ih_new (match db with Some _ => true | None => false end)) (mkLine 0 0 (0, 0) 0) 0)) as C. unfold interactive_start in S0. rewrite S0 in C. exact C. }
  destruct st0; try (apply pair_equal_spec in L as [L <-]; apply pair_equal_spec in L as [<- <-]; exists (answering g), out0; split; [reflexivity|]; split; [reflexivity|]; unfold interactive; rewrite (St _ eq_refl); split; reflexivity).
  destruct (live_run pr ord x (g_width g) evs u0 (grid_after out0 g) u g' st (answering g)) as (tm & out & Ag & W & R & ->).
  - apply grid_size. exact On.
  - apply grid_size. exact On.
  - reflexivity.
  - exact L.
  - assert (T0 : tm 0 = (cursor_of g, g_width g)) by (rewrite Ag by lia; reflexivity). exists tm, (out0 ++ out). split; [exact T0|]. split; [exact W|]. unfold interactive. rewrite (St _ T0), R. split; [reflexivity|]. rewrite grid_app. reflexivity.
Qed.
(** Any session on the alternate screen. *)
Lemma session_on_alternate pr ord w h g top a db evs u g' : (forall n, iterates (ord n)) -> valid_settings a -> a_alternate_screen a = true ->
  (forall sd, db = Some sd -> program_file (sd_db sd) /\ forall t, In t (texts_of (sd_db sd)) -> ~ In c_newline t) ->
  3 <= w -> fits_u16 w -> fits_u16 h -> g_width g = w -> g_height g = h -> ready g top -> undisturbed evs ->
  enough_room pr ord the_executor a db evs g top -> live pr ord the_executor a db evs g = (u, g', Waiting) ->
  exists replies rows phys line, told_session pr ord the_executor a db evs g replies u g' /\ transcript (wide w) 0 replies rows /\ folded_all w rows phys /\
    shown (u_inputs u) = Ok line /\ edits_at g' (top ++ phys) line (l_cursor (u_line u)).
Proof.
  intros Ho Ha Al Hd H3 Hu Hh Gw Gh Rd Und Room L.
  destruct (any_session pr ord w h g top a db Ho Ha Al Hd H3 Hu Hh Gw Gh Rd evs u g' Und Room L) as (replies & rows & phys & T & Tr & F & P). destruct (pa_edits _ _ _ _ _ P) as (line & El & Ed).
  exists replies, rows, phys, line. auto.
Qed.
(** What is told is determined. *)
Lemma told_unique pr ord x evs u g r1 u1 g1 : told pr ord x evs u g r1 u1 g1 -> forall r2 u2 g2, told pr ord x evs u g r2 u2 g2 -> r1 = r2 /\ u1 = u2 /\ g1 = g2.
Proof.
  induction 1 as [u g|ev evs u g u1 g1 rs u2 g2 Hne L T IH|mods evs u g u1 g1 line se r text rs u2 g2 Sh Ca Rt L T IH]; intros r3 u3 g3 T'.
  - inversion T'; subst. auto.
  - inversion T' as [|? ? ? ? u1' g1' ? ? ? Hne' L' T''|mods' ? ? ? ? ? ? ? ? ? ? ? ? ? ? ? L' T'']; subst.
    + rewrite L in L'. apply pair_equal_spec in L' as [L' _]. apply pair_equal_spec in L' as [<- <-]. apply IH. exact T''.
    + destruct (Hne mods' eq_refl).
  - inversion T' as [|? ? ? ? u1' g1' ? ? ? Hne' L' T''|mods' ? ? ? u1' g1' line' se' r' text' ? ? ? Sh' Ca' Rt' L' T'']; subst.
    + destruct (Hne' mods eq_refl).
    + rewrite L in L'. apply pair_equal_spec in L' as [L' _]. apply pair_equal_spec in L' as [<- <-]. rewrite Sh in Sh'. apply ok_inj in Sh' as <-. rewrite Ca in Ca'. apply pair_equal_spec in Ca' as [<- <-].
      apply reply_render in Rt. apply reply_render in Rt'. rewrite Rt in Rt'. apply ok_inj in Rt' as <-. destruct (IH _ _ _ T'') as (-> & -> & ->). auto.
Qed.
