(** ProofsResize2.v -- what is not rewritten when the window is resized, and what Enter leaves. *)
From Verif Require Import Base Position Num TokenTypes Errors Token SavedData Variables InputHistory
  SyntaxTree Commands Calculate Editor Sessions SpecEval SpecHistory SpecEditor SpecCalc SpecSession SpecMain SpecTerminal SpecResize.
From Verif Require Import ProofsEval ProofsDb2 ProofsEditor ProofsEditor2 ProofsEditor3 ProofsEditor4 ProofsCalc4 ProofsCalc6 ProofsCalc7 ProofsCalc8 ProofsCommands2 ProofsSession ProofsKept ProofsTerminal ProofsTerminal2 ProofsTerminal3 ProofsTerminal4 ProofsTerminal5 ProofsTerminal6 ProofsResize.
From Coq Require Import String Lia.
Local Open Scope nat_scope.
Local Open Scope list_scope.

Lemma inline_shown pr ord a db evs g u g' line : resized_session pr ord the_executor a db evs g u g' -> a_alternate_screen a = false ->
  6 <= g_width g' -> fits_u16 (g_width g') -> shown (u_inputs u) = Ok line -> ~ In c_newline line ->
  row_shows (g_width g') line (l_cursor (u_line u)) (row_text g') (fst (cursor_of g')).
Proof.
  intros R Al H6 Hu El Hn. pose proof (session_follows _ _ _ _ _ _ _ _ R ltac:(congruence)) as F. rewrite Al in F. exact (fo_drawn _ _ _ F line El Hn Hu H6).
Qed.
Lemma alternate_shown pr ord a db evs g u g' line e : resized_session pr ord the_executor a db evs g u g' -> a_alternate_screen a = true -> fst (cursor_of g) = 0 ->
  3 <= g_width g' -> fits_u16 (g_width g') -> fits_u16 (g_height g') -> shown (u_inputs u) = Ok line -> ~ In c_newline line ->
  echo (g_width g') line e -> first_row u + List.length e <= g_height g' -> rows_show g' (first_row u) line (l_cursor (u_line u)).
Proof.
  intros R Al Hc H3 Hu Hh El Hn Ee Fit. pose proof (session_follows _ _ _ _ _ _ _ _ R (fun _ => Hc)) as F. rewrite Al in F. exact (fo_drawn _ _ _ F line El Hn Hu e H3 Hh Ee Fit).
Qed.

(** ** Nothing else is touched *)
Lemma step_draws pr ord ev u g u1 g1 : ui_ok u -> (forall mods, ev <> EvKey KEnter mods) -> live_step pr ord the_executor ev u g = (u1, g1, Waiting) ->
  g1 = g /\ first_row u1 = first_row u /\ ~ resizes ev \/
  exists l out, display pr (a_alternate_screen (u_args u)) false l (u_inputs u1) = Ok (u_line u1, out) /\ l_start l = l_start (u_line u) /\ g1 = grid_after out g /\
    (forall w, ev = EvResize w -> l_cols l = w) /\ (~ resizes ev -> l_cols l = l_cols (u_line u)).
Proof.
  intros Hok Hne L. unfold live_step in L. cbv zeta in L. match type of L with context [answering ?a] => set (tm := answering a) in L end. clearbody tm.
  unfold ui_step in L. pose proof (handle_event_minds ev (u_line u) (u_inputs u) (u_db u) (proj1 Hok)) as Mi.
  pose proof (resize_cols ev (u_line u) (u_inputs u) (u_db u)) as Rc. pose proof (handle_event_cols ev (u_line u) (u_inputs u) (u_db u)) as Co.
  destruct (handle_event ev (u_line u) (u_inputs u) (u_db u)) as [[[l' h'] db'] act]. cbn [minds snd] in *. destruct Mi as (Ms & Mi & Me). destruct act.
  - apply pair_equal_spec in L as [L _]. apply pair_equal_spec in L as [<- <-]. left. split; [reflexivity|]. split; [unfold first_row; cbn [u_line]; rewrite Ms; reflexivity|].
    intros (w & Ew). destruct (Rc w Ew) as [_ X]. discriminate X.
  - destruct (display pr _ false l' h') as [[l'' o]|e|p] eqn:Di; [|apply pair_equal_spec in L as [_ L]; discriminate L..].
    apply pair_equal_spec in L as [L _]. apply pair_equal_spec in L as [<- <-]. right. exists l', o. split; [exact Di|]. split; [exact Ms|]. split; [reflexivity|].
    split; [intros w Ew; apply (Rc w Ew)|exact Co].
  - destruct (Me eq_refl) as (mods & X). destruct (Hne _ X).
  - apply pair_equal_spec in L as [_ L]. discriminate L.
  - apply pair_equal_spec in L as [_ L]. discriminate L.
  - apply pair_equal_spec in L as [_ L]. discriminate L.
Qed.
Lemma resize_dec ev : {w | ev = EvResize w} + {~ resizes ev}.
Proof. destruct ev as [| |w|]; [right; intros (? & X); discriminate X|right; intros (? & X); discriminate X|left; exists w; reflexivity|right; intros (? & X); discriminate X]. Qed.
Lemma live_ok pr ord ev u g u1 g1 : ui_ok u -> live_step pr ord the_executor ev u g = (u1, g1, Waiting) -> ui_ok u1.
Proof.
  intros Hok L. unfold live_step in L. cbv zeta in L. match type of L with context [answering ?a] => set (tm := answering a) in L end.
  pose proof (ui_step_ok pr ord the_executor tm ev u Hok) as K. destruct (ui_step pr ord the_executor tm ev u) as [[u2 out] st].
  apply pair_equal_spec in L as [L ->]. apply pair_equal_spec in L as [<- _]. apply K. reflexivity.
Qed.
Lemma inline_rest pr ord a db evs g0 u g ev g' u1 g1 line : resized_session pr ord the_executor a db evs g0 u g -> a_alternate_screen a = false ->
  (forall mods, ev <> EvKey KEnter mods) -> (~ resizes ev -> g' = g) -> (forall w, ev = EvResize w -> g_width g' = w /\ g_row g' < g_height g') ->
  live_step pr ord the_executor ev u g' = (u1, g1, Waiting) -> 6 <= g_width g' -> fits_u16 (g_width g') -> shown (u_inputs u1) = Ok line -> ~ In c_newline line ->
  g_gone g1 = g_gone g' /\ g_row g1 = g_row g' /\ firstn (g_row g1) (g_rows g1) = firstn (g_row g') (g_rows g') /\
  skipn (S (g_row g1)) (g_rows g1) = skipn (S (g_row g')) (g_rows g').
Proof.
  intros R Al Hne Hs Hr L H6 Hu El Hn. pose proof (session_follows _ _ _ _ _ _ _ _ R ltac:(congruence)) as F. rewrite Al in F.
  pose proof (live_ok _ _ _ _ _ _ _ (fo_ok _ _ _ F) L) as Ok1.
  destruct (step_draws _ _ _ _ _ _ _ (fo_ok _ _ _ F) Hne L) as [(-> & _)|(l & out & D & Sl & -> & C1 & C2)]; [auto|].
  rewrite (fo_mode _ _ _ F) in D. destruct (display_state _ _ _ _ _ _ D) as (_ & _ & S3). destruct Ok1 as (_ & t & Et & Hc). rewrite El in Et. injection Et as <-. rewrite S3 in Hc.
  assert (On : onscreen g') by (destruct (resize_dec ev) as [[w Ew]|Nr]; [apply (Hr w Ew)|rewrite (Hs Nr); apply (fo_on _ _ _ F)]).
  assert (Ec : l_cols l = g_width g').
  { destruct (resize_dec ev) as [[w Ew]|Nr]; [rewrite (C1 w Ew); symmetry; apply (Hr w Ew)|]. rewrite (C2 Nr), (Hs Nr). apply (fo_cols _ _ _ F). }
  destruct (drawn_inline _ _ _ _ _ _ _ D El Hc Ec H6 Hu Hn On) as (row & col & -> & _). unfold with_row. cbn [g_gone g_row g_rows]. split; [reflexivity|]. split; [reflexivity|].
  unfold set_row, onscreen, g_height in *. assert (Lf : List.length (firstn (g_row g') (g_rows g')) = g_row g') by (rewrite firstn_length; lia).
  split.
  - rewrite firstn_app, Lf, Nat.sub_diag. cbn [firstn]. rewrite app_nil_r, firstn_firstn, Nat.min_id. reflexivity.
  - rewrite skipn_app, Lf. replace (S (g_row g') - g_row g') with 1 by lia. rewrite skipn_all2 by lia. reflexivity.
Qed.
Lemma alternate_rest pr ord a db evs g0 u g ev g' u1 g1 line e : resized_session pr ord the_executor a db evs g0 u g -> a_alternate_screen a = true -> fst (cursor_of g0) = 0 ->
  (forall mods, ev <> EvKey KEnter mods) -> (~ resizes ev -> g' = g) -> (forall w, ev = EvResize w -> g_width g' = w /\ g_row g' < g_height g') ->
  live_step pr ord the_executor ev u g' = (u1, g1, Waiting) -> 3 <= g_width g' -> fits_u16 (g_width g') -> fits_u16 (g_height g') ->
  shown (u_inputs u1) = Ok line -> ~ In c_newline line -> echo (g_width g') line e -> first_row u + List.length e <= g_height g' ->
  first_row u1 = first_row u /\ g_gone g1 = g_gone g' /\ firstn (first_row u) (g_rows g1) = firstn (first_row u) (g_rows g').
Proof.
  intros R Al Hc0 Hne Hs Hr L H3 Hu Hh El Hn Ee Fit. pose proof (session_follows _ _ _ _ _ _ _ _ R (fun _ => Hc0)) as F. rewrite Al in F.
  pose proof (live_ok _ _ _ _ _ _ _ (fo_ok _ _ _ F) L) as Ok1.
  destruct (step_draws _ _ _ _ _ _ _ (fo_ok _ _ _ F) Hne L) as [(-> & -> & _)|(l & out & D & Sl & -> & C1 & C2)]; [auto|].
  rewrite (fo_mode _ _ _ F) in D. destruct (display_state _ _ _ _ _ _ D) as (S1 & _ & S3). destruct Ok1 as (_ & t & Et & Hc). rewrite El in Et. injection Et as <-. rewrite S3 in Hc.
  assert (On : onscreen g') by (destruct (resize_dec ev) as [[w Ew]|Nr]; [apply (Hr w Ew)|rewrite (Hs Nr); apply (fo_on _ _ _ F)]).
  assert (Ec : l_cols l = g_width g').
  { destruct (resize_dec ev) as [[w Ew]|Nr]; [rewrite (C1 w Ew); symmetry; apply (Hr w Ew)|]. rewrite (C2 Nr), (Hs Nr). apply (fo_cols _ _ _ F). }
  split; [unfold first_row; congruence|].
  destruct (drawn_alternate pr l (u_inputs u1) (u_line u1) out line g' (first_row u) e D El Hc Ec) as (_ & G & T); try assumption; [|split; assumption].
  rewrite Sl. pose proof (fo_start _ _ _ F eq_refl) as Z. unfold first_row. destruct (l_start (u_line u)) as [c r]. cbn in *. congruence.
Qed.

(** ** Enter *)
Lemma echo_anyway pr cols cursor start line out : 3 <= cols -> fits_u16 cols -> ~ In c_newline line -> display_wrapped pr false true cols cursor start line = Ok out ->
  exists rows, echo cols line rows /\ forall s, screen_after out s = mkScreen (sc_above s ++ rows) [] 0.
Proof.
  intros H3 Hu Hn D. destruct (finished_echo pr cols 0 (0, 0) line H3 Hu) as (out' & rows & D' & Ee & Sc); [cbn [snd]; rewrite Nat.div_0_l by lia; reflexivity|exact Hn|].
  assert (out' = out) as ->; [|exists rows; auto].
  unfold display_wrapped in *. cbv zeta in *. destruct (Nat.ltb _ _); [discriminate D|]. destruct (Nat.eqb _ _); [discriminate D|].
  destruct (u16_try_from (cursor / _)) as [q|e|p]; cbn [bind] in D; try discriminate D. destruct (u16_add pr q (snd start)) as [cr|e|p]; cbn [bind] in D; try discriminate D.
  destruct (u16_try_from (cursor mod _ + _)) as [cc|e|p]; cbn [bind] in D; try discriminate D.
  destruct (u16_try_from (0 / _)) as [q'|e|p]; cbn [bind] in D'; try discriminate D'. destruct (u16_add pr q' (snd (0, 0))) as [cr'|e|p]; cbn [bind] in D'; try discriminate D'.
  destruct (u16_try_from (0 mod _ + _)) as [cc'|e|p]; cbn [bind] in D'; try discriminate D'.
  destruct (slice line 0 _) as [s1|e|p]; cbn [bind] in *; try discriminate D. destruct (wrap_rest _ _ _ _ _ _) as [s2|e|p]; cbn [bind] in *; try discriminate D. congruence.
Qed.
Lemma enter_front pr ord tm mods u u1 out line se r text : ui_step pr ord the_executor tm (EvKey KEnter mods) u = (u1, out, Waiting) -> a_alternate_screen (u_args u) = false ->
  shown (u_inputs u) = Ok line -> calculate pr (ord (u_count u)) the_executor line (session_of u) = (se, r) -> reply_text r text ->
  exists out1, display_wrapped pr false true (l_cols (u_line u)) (l_cursor (u_line u)) (l_start (u_line u)) line = Ok out1 /\
    snd (fst (ui_step pr ord the_executor no_width (EvKey KEnter mods) u)) = out1 ++ print_output false text /\ shown (u_inputs u1) = Ok [].
Proof.
  intros St Al El C T. unfold shown in El.
  unfold ui_step in *. cbn [handle_event] in *. unfold finish_line in *. cbv zeta in *. cbn [u_args u_vars u_db u_inputs u_line u_count] in *. rewrite Al in *. unfold display in *. rewrite El in *. cbn [bind orb] in *.
  destruct (display_wrapped pr false true _ _ _ line) as [out1|e|p]; cbn [bind] in *; [|apply pair_equal_spec in St as [_ St]; discriminate St..].
  change (mkSession (u_args u) (Some (u_inputs u)) (mkEnv (Some (u_vars u)) (u_db u))) with (session_of u) in *. rewrite C in *.
  pose proof (line_screen _ _ _ _ _ _ C) as Sc. cbn [session_of s_args] in Sc. rewrite Al in Sc.
  pose proof (calculate_fresh _ _ _ _ _ _ _ _ _ _ El C) as Fr. rewrite Fr in *.
  apply reply_render in T. rewrite T in *. exists out1. split; [reflexivity|]. unfold start_line in *. cbv zeta in *. cbn [u_args u_vars u_db u_inputs u_line u_count no_width fst snd] in *. rewrite Sc in *.
  split.
  - match goal with |- context [display pr false false ?l ?h] => destruct (display pr false false l h) as [[l' o]|e|p] eqn:D; [destruct (no_width_display _ _ _ _ _ D)| |] end; cbn [fst snd]; rewrite app_nil_r; reflexivity.
  - match type of St with context [display pr false false ?l ?h] => destruct (display pr false false l h) as [[l' o]|e|p] end; apply pair_equal_spec in St as [St W]; try discriminate W.
    apply pair_equal_spec in St as [<- _]. reflexivity.
Qed.
Lemma inline_enter pr ord a db evs g0 u g mods u1 g1 line se r text above row col : resized_session pr ord the_executor a db evs g0 u g -> a_alternate_screen a = false ->
  6 <= g_width g -> fits_u16 (g_width g) -> shown (u_inputs u) = Ok line -> ~ In c_newline line ->
  calculate pr (ord (u_count u)) the_executor line (session_of u) = (se, r) -> reply_text r text -> displays g above row col ->
  live_step pr ord the_executor (EvKey KEnter mods) u g = (u1, g1, Waiting) ->
  exists e rows phys, echo (g_width g) line e /\ rows_of text rows /\ folded_all (g_width g) rows phys /\ displays g1 (above ++ e ++ phys) (lit "# ") 2.
Proof.
  intros R Al H6 Hu El Hn C T Di L. pose proof (session_follows _ _ _ _ _ _ _ _ R ltac:(congruence)) as F. rewrite Al in F.
  destruct F as [Hok Em Ec On _ _]. destruct (displays_tape _ _ _ _ Di) as (T0 & T1).
  unfold live_step in L. cbv zeta in L. set (asked := snd (fst (ui_step pr ord the_executor no_width (EvKey KEnter mods) u))) in L. set (tm := answering (grid_after asked g)) in L.
  destruct (ui_step pr ord the_executor tm (EvKey KEnter mods) u) as [[u2 out] st] eqn:St. apply pair_equal_spec in L as [L ->]. apply pair_equal_spec in L as [-> <-].
  destruct (enter_front _ _ _ _ _ _ _ _ _ _ _ St Em El C T) as (out1 & Dw & As & Fresh). fold asked in As.
  destruct (enter_waits _ _ _ _ _ _ _ St) as (front & last & -> & _ & As' & _ & D). fold asked in As'. rewrite Em in D.
  rewrite Ec in Dw. assert (H3 : 3 <= g_width g) by lia. destruct (echo_anyway _ _ _ _ _ _ H3 Hu Hn Dw) as (e & Ee & Sc). destruct (output_screen text e) as (rows & Ro & So).
  destruct (folded_all_exists (g_width g) rows ltac:(lia)) as (phys & Fp). exists e, rows, phys. split; [exact Ee|]. split; [exact Ro|]. split; [exact Fp|].
  destruct (wrapped_ends _ _ _ _ _ _ Hn Dw) as (text1 & E1 & Ti & En).
  assert (N : neat (g_width g) front).
  { rewrite <- As', As, E1, <- app_assoc. rewrite <- (app_nil_r (text1 ++ _)). apply neat_block; [apply tidy_app; [exact Ti|apply output_tidy]| |constructor].
    destruct (output_ends text) as (f & Ef). exists (text1 ++ f). rewrite Ef, app_assoc. reflexivity. }
  set (gc := with_row g [] 0).
  assert (Eg : grid_after front g = grid_after front gc).
  { rewrite <- As', As, E1. cbn [app grid_after fold_left].
    assert (X : on_grid (on_grid gc (MoveToColumn 0)) ClearCurrentLine = with_row gc [] 0) by reflexivity. rewrite X. unfold gc. rewrite with_row_again by exact On. reflexivity. }
  assert (P : pictured above (g_width g) blank gc).
  { apply blank_pictured; [|reflexivity|reflexivity]. apply (tape_col (mkGrid (g_width g) (g_gone g) (set_row g []) (g_row g) (g_col g)) above [] 0). apply (tape_set _ _ _ [] T0). }
  destruct (neat_picture above (g_width g) front ltac:(lia) N _ _ P) as (rows' & F' & T' & Gw' & _ & Gc' & _). rewrite <- Eg in *.
  assert (Es : screen_after front blank = mkScreen (e ++ rows) [] 0) by (rewrite <- As', As, screen_app, Sc; exact So). rewrite Es in *. cbn [sc_above sc_row sc_col] in *.
  assert (rows' = e ++ phys) as ->.
  { eapply folded_all_unique; [|exact F'|]; [lia|]. apply folded_all_two; [apply folded_all_short|exact Fp].
    destruct Ee as (f1 & rest & -> & Fo). assert (Sh : Forall (fun x => List.length x <= g_width g - 2) (f1 :: rest)).
    { destruct Fo as (fr & la & Eq & _ & Ff & Fl & _). rewrite Eq. apply Forall_app. split; [|constructor; [exact Fl|constructor]]. eapply Forall_impl; [|exact Ff]. cbn. intros; lia. }
    apply Forall_cons_iff in Sh as [S1 S2]. constructor; [cbn; lia|]. apply Forall_map. eapply Forall_impl; [|exact S2]. cbn. intros. lia. }
  rewrite grid_app. set (gf := grid_after front g) in *. assert (Onf : onscreen gf) by (apply grid_size; exact On).
  pose proof (fun l => drawn_inline pr l (u_inputs u1) (u_line u1) last [] gf) as Dr.
  specialize (Dr _ D Fresh ltac:(cbn; lia)). destruct Dr as (row1 & col1 & -> & (off & O1 & O2 & -> & -> & _)); [cbn [l_cols tm answering snd]; rewrite As'; reflexivity|lia|congruence|intros []|exact Onf|].
  cbn [l_cursor] in *. assert (off = 0) as -> by lia. rewrite skipn_nil, firstn_nil. cbn [Nat.eqb List.length app]. change (0 + (g_width gf - 4)) with (g_width gf - 4).
  change (Nat.ltb (g_width gf - 4) 0) with false. cbv iota. rewrite app_nil_r.
  assert (Tf : tape (with_row gf (lit "# ") (2 + (0 - 0))) (above ++ e ++ phys) (lit "# ")).
  { apply (tape_col (mkGrid (g_width gf) (g_gone gf) (set_row gf (lit "# ")) (g_row gf) (g_col gf)) _ _ (2 + (0 - 0))). apply (tape_set _ _ _ _ T'). }
  assert (Ti' : tight (with_row gf (lit "# ") (2 + (0 - 0)))).
  { assert (Tg : tight gf) by (apply (stays_tight front); [apply (neat_stays (g_width g)); exact N|exact T1]).
    destruct Tg as (Tg1 & Tg2). split; [apply with_row_on; exact Onf|]. unfold with_row, g_height in *. cbn [g_gone g_row g_rows]. rewrite (set_row_length gf _ Onf). exact Tg2. }
  pose proof (tape_displays _ _ _ Tf Ti') as Dd. cbn [with_row g_col g_width] in Dd. rewrite Gw' in Dd. replace (Nat.min (2 + (0 - 0)) (g_width g - 1)) with 2 in Dd by lia. exact Dd.
Qed.

(** ** For examples: a session with the given contents of the terminal after each resize *)
Fixpoint replay (pr : profile) (ord : nat -> list str -> list str) (x : executor) (evs : list (event * grid)) (u : ui) (g : grid) : option (ui * grid) :=
  match evs with
  | [] => Some (u, g)
  | (ev, g') :: evs' =>
      let g0 := match ev with EvResize _ => g' | _ => g end in
      if match ev with EvResize w => Nat.eqb (g_width g') w && Nat.ltb (g_row g') (g_height g') | _ => true end then
        match live_step pr ord x ev u g0 with (u1, g1, Waiting) => replay pr ord x evs' u1 g1 | _ => None end
      else None
  end.
Lemma replay_run pr ord x evs : forall u g u' g', replay pr ord x evs u g = Some (u', g') -> resized_run pr ord x (map fst evs) u g u' g'.
Proof.
  induction evs as [|[ev g0] evs IH]; intros u g u' g' E; cbn [replay map fst] in *.
  - injection E as <- <-. constructor.
  - destruct ev as [code mods| |w|].
    3:{ destruct (Nat.eqb_spec (g_width g0) w) as [Ew|]; cbn [andb] in E; [|discriminate E]. destruct (Nat.ltb_spec (g_row g0) (g_height g0)); [|discriminate E].
        destruct (live_step pr ord x (EvResize w) u g0) as [[u1 g1] st] eqn:L. destruct st; try discriminate E. eapply rr_resize; eauto. }
    all: match type of E with match live_step ?a ?b ?c ?ev ?u ?g with _ => _ end = _ => destruct (live_step a b c ev u g) as [[u1 g1] st] eqn:L end; destruct st; try discriminate E;
      (eapply rr_other; [intros (? & X); discriminate X|exact L|apply IH; exact E]).
Qed.
Definition replay_session (pr : profile) (ord : nat -> list str -> list str) (x : executor) (a : args) (db : option saved_data) (evs : list (event * grid)) (g : grid) : option (ui * grid) :=
  if Nat.ltb (g_row g) (g_height g) then
    match interactive_start pr (answering g) a db with (u, out, Waiting) => replay pr ord x evs u (grid_after out g) | _ => None end
  else None.
Lemma replay_session_run pr ord x a db evs g u g' : replay_session pr ord x a db evs g = Some (u, g') -> resized_session pr ord x a db (map fst evs) g u g'.
Proof.
  unfold replay_session. destruct (Nat.ltb_spec (g_row g) (g_height g)); [|discriminate]. destruct (interactive_start pr (answering g) a db) as [[u0 out] st] eqn:S0. destruct st; try discriminate.
  intros E. split; [assumption|]. exists u0, out. split; [exact S0|]. apply replay_run. exact E.
Qed.
