(** ProofsTerminal7.v -- whole sessions on the alternate screen: any events, and typed dialogues. *)
From Verif Require Import Base Position Num TokenTypes Errors Token SavedData Variables InputHistory
  SyntaxTree Commands Calculate Editor Sessions SpecEval SpecHistory SpecEditor SpecCalc SpecSession SpecMain SpecTerminal.
From Verif Require Import ProofsEval ProofsDb2 ProofsEditor ProofsEditor2 ProofsEditor3 ProofsEditor4 ProofsCalc4 ProofsCalc6 ProofsCalc7 ProofsCalc8 ProofsCommands2 ProofsSession ProofsKept ProofsTerminal ProofsTerminal2 ProofsTerminal3 ProofsTerminal4 ProofsTerminal5 ProofsTerminal6.
From Coq Require Import String Lia.
Local Open Scope nat_scope.
Local Open Scope list_scope.

Lemma told_app pr ord x a b u g r1 u1 g1 r2 u2 g2 : told pr ord x a u g r1 u1 g1 -> told pr ord x b u1 g1 r2 u2 g2 -> told pr ord x (a ++ b) u g (r1 ++ r2) u2 g2.
Proof. induction 1; intros Hb; cbn [app]; [exact Hb|eapply to_key; eauto|eapply to_enter; eauto]. Qed.
Lemma live_events_app pr ord x a : forall b u g, live_events pr ord x (a ++ b) u g =
  match live_events pr ord x a u g with (u', g', Waiting) => live_events pr ord x b u' g' | stopped => stopped end.
Proof.
  induction a as [|ev a IH]; intros b u g; cbn [app live_events]; [reflexivity|]. destruct (live_step pr ord x ev u g) as [[u1 g1] st]. destruct st; try reflexivity. apply IH.
Qed.
Lemma transcript_snoc tm : (forall n, snd (tm n) = snd (tm 0)) -> forall rs n rows line text e r, transcript tm n rs rows -> echo (snd (tm 0)) line e -> rows_of text r -> transcript tm n (rs ++ [(line, text)]) (rows ++ e ++ r).
Proof.
  intros Hw. induction rs as [|[l t] rs IH]; intros n rows line text e r T E R; inversion T; subst; cbn [app].
  - rewrite <- (app_nil_r r). econstructor; [rewrite Hw; exact E|exact R|constructor].
  - rewrite <- !app_assoc. econstructor; eauto.
Qed.
Lemma rows_of_exists text : exists rows, rows_of text rows.
Proof. exists (split_lines text []). destruct (split_lines_spec text [] (fun x => x)) as (A & B & C). split; [exact A|]. split; [exact B|]. symmetry. exact C. Qed.
Lemma echo_folded w line e : 3 <= w -> echo w line e -> folded_all w e e.
Proof.
  intros H3 (f & rr & -> & (front & last & E1 & _ & E3 & E4 & _)). apply folded_all_short.
  assert (K : Forall (fun r0 : str => List.length r0 <= w - 2) (f :: rr)).
  { rewrite E1. apply Forall_app. split; [|constructor; [exact E4|constructor]]. apply Forall_forall. intros x Hx. rewrite Forall_forall in E3. rewrite (E3 x Hx). apply le_n. }
  apply Forall_cons_iff in K as [K1 K2]. constructor; [rewrite app_length; change (List.length (lit "# ")) with 2; lia|].
  apply Forall_forall. intros x Hx. apply in_map_iff in Hx as (y & <- & Hy). rewrite Forall_forall in K2. specialize (K2 y Hy). rewrite app_length. change (List.length (lit "  ")) with 2. cbv beta in K2. lia.
Qed.
(** The session has begun. *)
Lemma begin_alternate pr w h top a db g : valid_settings a -> a_alternate_screen a = true ->
  (forall sd, db = Some sd -> program_file (sd_db sd) /\ clean_file (sd_db sd)) -> 3 <= w -> fits_u16 w -> fits_u16 h -> g_width g = w -> g_height g = h -> ready g top ->
  exists u out, interactive_start pr (answering g) a db = (u, out, Waiting) /\ painted w h top u (grid_after out g) /\ session_of u = new_session a db /\
    u_count u = 0 /\ l_cursor (u_line u) = 0 /\ ih_current (u_inputs u) = [Some []] /\ ih_index (u_inputs u) = 0.
Proof.
  intros Ha Al Hd H3 Hu Hh Gw Gh (R1 & R2 & R3 & R4). unfold interactive_start.
  match goal with |- context [start_line pr _ ?u0] => set (u := u0) end.
  destruct (start_alternate pr w h top (answering g) u g H3 Hu Hh) as (l & out & S & Lc & P).
  - unfold answering. rewrite R3, Gw. reflexivity.
  - intros l Hl Hc. constructor; [exact Al|exact Hl| |intros sd E; apply Hd; exact E| |].
    + split; [constructor|]. split; [constructor|]. cbn. intros t [X|[]]. injection X as <-. intros [].
    + split; [exact Ha|]. split; [split|].
      * intros m y v E. cbn in E. injection E as <-. discriminate.
      * intros sd E. apply file_rows, Hd, E.
      * intros sd E. apply Hd, E.
    + split; [apply ih_new_ok|]. exists []. split; [reflexivity|]. cbn [u_line]. lia.
  - reflexivity.
  - exact Gw.
  - exact Gh.
  - split; [|split; [exact R1|split; [exact R2|exact R4]]]. unfold onscreen. unfold cursor_of in R3. apply pair_equal_spec in R3 as [_ ->]. exact R4.
  - rewrite S. eexists _, out. split; [reflexivity|]. split; [exact P|]. split; [reflexivity|]. split; [reflexivity|]. split; [exact Lc|]. split; reflexivity.
Qed.
(** Enter that leaves the program waiting: the line was answered. *)
Lemma enter_answers pr ord x mods u g u1 g1 : live_step pr ord x (EvKey KEnter mods) u g = (u1, g1, Waiting) ->
  exists line se r text, shown (u_inputs u) = Ok line /\ calculate pr (ord (u_count u)) x line (session_of u) = (se, r) /\ reply_text r text.
Proof.
  unfold live_step. cbv zeta. match goal with |- context [answering ?k] => set (tm := answering k) end. clearbody tm. unfold ui_step. cbn [handle_event].
  replace (mkUi (u_args u) (u_vars u) (u_db u) (u_inputs u) (u_line u) (u_count u)) with u by (destruct u; reflexivity). unfold finish_line. cbv zeta. unfold shown.
  destruct (display _ _ _ _ _) as [[l1 o1]|e|p]; [|intros X; apply pair_equal_spec in X as [_ X]; discriminate X..].
  destruct (current_line (u_inputs u)) as [line|e|p]; [|intros X; apply pair_equal_spec in X as [_ X]; discriminate X..].
  change (mkSession (u_args u) (Some (u_inputs u)) (mkEnv (Some (u_vars u)) (u_db u))) with (session_of u).
  destruct (calculate pr (ord (u_count u)) x line (session_of u)) as [se r] eqn:Ca.
  destruct (render r) as [text|e|p] eqn:R; [|intros X; apply pair_equal_spec in X as [_ X]; discriminate X..]. intros _.
  exists line, se, r, text. split; [reflexivity|]. split; [exact Ca|]. apply reply_render. exact R.
Qed.
Lemma any_session pr ord w h g top a db : (forall n, iterates (ord n)) -> valid_settings a -> a_alternate_screen a = true ->
  (forall sd, db = Some sd -> program_file (sd_db sd) /\ forall t, In t (texts_of (sd_db sd)) -> ~ In c_newline t) ->
  3 <= w -> fits_u16 w -> fits_u16 h -> g_width g = w -> g_height g = h -> ready g top -> forall evs u g', undisturbed evs ->
  enough_room pr ord the_executor a db evs g top -> live pr ord the_executor a db evs g = (u, g', Waiting) ->
  exists replies rows phys, told_session pr ord the_executor a db evs g replies u g' /\ transcript (wide w) 0 replies rows /\ folded_all w rows phys /\ painted w h (top ++ phys) u g'.
Proof.
  intros Ho Ha Al Hd H3 Hu Hh Gw Gh Rd. destruct (begin_alternate pr w h top a db g Ha Al Hd H3 Hu Hh Gw Gh Rd) as (u0 & out0 & S0 & P0 & Ss0 & C0 & L0 & I0 & X0).
  induction evs as [|ev evs IH] using rev_ind; intros u g' Und Room L.
  - unfold live in L. rewrite S0 in L. cbn [live_events] in L. apply pair_equal_spec in L as [L _]. apply pair_equal_spec in L as [<- <-].
    exists [], [], []. rewrite app_nil_r. split; [exists u0, out0; split; [exact S0|constructor]|]. split; [constructor|]. split; [exists []; split; [constructor|reflexivity]|]. exact P0.
  - apply Forall_app in Und as [Und Uev]. apply Forall_cons_iff in Uev as [[Hr Hk] _].
    unfold live in L. rewrite S0 in L. rewrite live_events_app in L.
    destruct (live_events pr ord the_executor evs u0 (grid_after out0 g)) as [[u1 g1] st] eqn:Le. destruct st; try (apply pair_equal_spec in L as [_ L]; discriminate L).
    cbn [live_events] in L. destruct (live_step pr ord the_executor ev u1 g1) as [[u2 g2] st2] eqn:Ls. destruct st2; try (apply pair_equal_spec in L as [_ L]; discriminate L).
    apply pair_equal_spec in L as [L _]. apply pair_equal_spec in L as [<- <-].
    destruct (IH u1 g1 Und) as (replies & rows & phys & (u0' & o' & S0' & T) & Tr & Fo & P).
    { intros now later rp u3 g3 rw ph line e -> . apply (Room now (later ++ [ev])). rewrite app_assoc. reflexivity. }
    { unfold live. rewrite S0. exact Le. }
    assert (o' = out0 /\ u0' = u0) as [-> ->] by (split; congruence). clear S0'.
    assert (Ent : (exists mods, ev = EvKey KEnter mods) \/ forall mods, ev <> EvKey KEnter mods).
    { destruct ev as [[]| | |]; try (right; discriminate). left. eexists. reflexivity. }
    destruct Ent as [(mods & ->)|Hne].
    + destruct (enter_answers _ _ _ _ _ _ _ _ Ls) as (line & se & r & text & Sh & Ca & Rt).
      destruct (echo_exists w line H3) as (e & Ee). destruct (rows_of_exists text) as (rw & Rw). destruct (folded_all_exists w rw ltac:(lia)) as (physr & Fr).
      assert (T2 : told_session pr ord the_executor a db (evs ++ [EvKey KEnter mods]) g (replies ++ [(line, text)]) u2 g2).
      { exists u0, out0. split; [exact S0|]. eapply told_app; [exact T|]. eapply to_enter; eauto. constructor. }
      assert (Tr2 : transcript (wide w) 0 (replies ++ [(line, text)]) (rows ++ e ++ rw)) by (apply transcript_snoc; [reflexivity|exact Tr|exact Ee|exact Rw]).
      assert (Fe: folded_all w e e) by (eapply echo_folded; eauto).
      assert (Fo2 : folded_all w (rows ++ e ++ rw) (phys ++ e ++ physr)) by (apply folded_all_two; [exact Fo|apply folded_all_two; assumption]).
      assert (Fit : List.length (top ++ phys) + List.length e + List.length physr < h).
      { (* the line shown after Enter is empty *)
        assert (Sh2 : shown (u_inputs u2) = Ok []).
        { destruct (enter_alternate pr ord w u1 line se r Ho (pa_alt _ _ _ _ _ P) Sh Ca) as (vs & Ev & Ein & _). cbv zeta in Ein.
          assert (Iu : u_inputs u2 = mkIH (ih_internal (u_inputs u1) ++ [line]) (ih_db (u_inputs u1)) [Some []] 0 (ih_exhausted (u_inputs u1))).
          { unfold live_step in Ls. cbv zeta in Ls. match type of Ls with context [answering ?k] => set (tm := answering k) in Ls end. clearbody tm. unfold ui_step in Ls. cbn [handle_event] in Ls.
            replace (mkUi (u_args u1) (u_vars u1) (u_db u1) (u_inputs u1) (u_line u1) (u_count u1)) with u1 in Ls by (destruct u1; reflexivity). unfold finish_line in Ls. cbv zeta in Ls.
            destruct (display _ _ _ _ _) as [[l1 o1]|e1|p1]; [|apply pair_equal_spec in Ls as [_ Ls]; discriminate Ls..]. unfold shown in Sh. rewrite Sh in Ls.
            change (mkSession (u_args u1) (Some (u_inputs u1)) (mkEnv (Some (u_vars u1)) (u_db u1))) with (session_of u1) in Ls. rewrite Ca, (proj1 (reply_render _ _) Rt), Ein in Ls.
            unfold start_line in Ls. cbv zeta in Ls. destruct (display _ _ _ _ _) as [[l3 o3]|e3|p3]; [|apply pair_equal_spec in Ls as [_ Ls]; discriminate Ls..].
            apply pair_equal_spec in Ls as [Ls _]. apply pair_equal_spec in Ls as [<- _]. reflexivity. }
          rewrite Iu. reflexivity. }
        assert (Room2 := Room (evs ++ [EvKey KEnter mods]) [] (replies ++ [(line, text)]) u2 g2 (rows ++ e ++ rw) (phys ++ e ++ physr) [] [lit "# "]). rewrite Gw, Gh in Room2.
        specialize (Room2 ltac:(rewrite app_nil_r; reflexivity) T2 Tr2 Fo2 Sh2 (prompt_echo w H3)). rewrite !app_length in *. cbn [List.length] in Room2. lia. }
      destruct (enter_live pr ord w h (top ++ phys) mods u1 g1 line se r text e rw physr Ho H3 Hu Hh P Sh Ca Rt Ee Rw Fr Fit) as (u3 & g3 & Ls' & P3 & _).
      rewrite Ls in Ls'. apply pair_equal_spec in Ls' as [Ls' _]. apply pair_equal_spec in Ls' as [<- <-].
      exists (replies ++ [(line, text)]), (rows ++ e ++ rw), (phys ++ e ++ physr). split; [exact T2|]. split; [exact Tr2|]. split; [exact Fo2|]. rewrite app_assoc. exact P3.
    + assert (T2 : told_session pr ord the_executor a db (evs ++ [ev]) g replies u2 g2).
      { exists u0, out0. split; [exact S0|]. rewrite <- (app_nil_r replies). eapply told_app; [exact T|]. eapply to_key; eauto. constructor. }
      exists replies, rows, phys. split; [exact T2|]. split; [exact Tr|]. split; [exact Fo|].
      apply (key_live pr ord w h (top ++ phys) ev u1 g1); auto. intros line e Sh Ee. rewrite app_length.
      assert (Room2 := Room (evs ++ [ev]) [] replies u2 g2 rows phys line e). rewrite Gw, Gh in Room2. apply Room2; auto. rewrite app_nil_r. reflexivity.
Qed.

(** ** Typed dialogues *)
Lemma char_live pr ord w h above u g t c e : 3 <= w -> fits_u16 w -> fits_u16 h -> painted w h above u g -> ih_current (u_inputs u) = [Some t] -> ih_index (u_inputs u) = 0 ->
  l_cursor (u_line u) = List.length t -> is_ascii c = true -> c <> c_newline -> echo w (t ++ [c]) e -> List.length above + List.length e <= h ->
  exists u' g', live_step pr ord the_executor (EvKey (KChar c) 0) u g = (u', g', Waiting) /\ painted w h above u' g' /\
    ih_current (u_inputs u') = [Some (t ++ [c])] /\ ih_index (u_inputs u') = 0 /\ l_cursor (u_line u') = List.length (t ++ [c]) /\
    u_count u' = u_count u /\ session_of u' = type_in (t ++ [c]) (session_of u).
Proof.
  intros H3 Hu Hh P Ic Ix Lc Ha Hc Ee Fit.
  set (h' := mkIH (ih_internal (u_inputs u)) (ih_db (u_inputs u)) [Some (t ++ [c])] 0 (ih_exhausted (u_inputs u))).
  assert (I : @insert_char runtime_error (u_inputs u) (l_cursor (u_line u)) c = Ok h').
  { unfold insert_char, edit_current, ensure_populated. rewrite Ic, Ix, Lc. cbn [nth_ok nth_error bind]. rewrite Ic, Ix. cbn [nth_ok nth_error bind]. unfold string_insert. rewrite Nat.leb_refl. cbn [bind].
    rewrite firstn_all, skipn_all. cbn [list_set]. reflexivity. }
  assert (Hn : ~ In c_newline t).
  { destruct P as [[_ _ (_ & _ & C) _ _ _] _ _ _ _ _]. apply C. rewrite Ic. left. reflexivity. }
  assert (Ev : handle_event (EvKey (KChar c) 0) (u_line u) (u_inputs u) (u_db u) = (with_cursor (u_line u) (l_cursor (u_line u) + 1), h', u_db u, ARedraw)).
  { cbn [handle_event]. unfold handle_char. rewrite Ha. cbn [negb]. change (N.eqb 0 CONTROL) with false. cbn [andb].
    change (N.eqb 0 SHIFT) with false. change (N.eqb 0 0) with true. cbn [negb]. rewrite I. reflexivity. }
  set (l' := with_cursor (u_line u) (l_cursor (u_line u) + 1)) in *.
  assert (E : exists out, live_step pr ord the_executor (EvKey (KChar c) 0) u g = (mkUi (u_args u) (u_vars u) (u_db u) h' l' (u_count u), grid_after out g, Waiting)).
  { destruct P as [[Al Ec C D G (Ok0 & In)] Es On Gw Gh (line & El & Ed)]. pose proof (topped_edits _ _ _ _ Ed On) as Tp. rewrite <- Gh in Hh, Fit.
    destruct (redraw_alternate pr w l' h' (t ++ [c]) g above e eq_refl Ec Es H3 Hu Hh) as (out & Di & _); auto.
    - cbn [l' with_cursor l_cursor]. rewrite Lc, app_length. cbn. lia.
    - rewrite in_app_iff. intros [X|[X|[]]]; [exact (Hn X)|exact (Hc X)].
    - exists out. unfold live_step, ui_step. rewrite Ev. rewrite Al, Di. reflexivity. }
  destruct E as (out & E). eexists _, _. split; [exact E|]. split.
  - apply (key_live pr ord w h above (EvKey (KChar c) 0) u g _ _ H3 Hu Hh) with (5 := E).
    + intros (k & X). discriminate X.
    + intros (m & X). injection X as X _. exact (Hc X).
    + discriminate.
    + exact P.
    + intros line' e' Sh' Ee'. change (@Ok runtime_error str (t ++ [c]) = Ok line') in Sh'. apply ok_inj in Sh' as <-. assert (e' = e) as -> by (eapply echo_unique; eauto). exact Fit.
  - cbn [u_inputs u_line u_count]. split; [reflexivity|]. split; [reflexivity|]. split; [cbn [l' with_cursor l_cursor]; rewrite Lc, app_length; reflexivity|]. split; reflexivity.
Qed.
Lemma type_live pr ord w h above line e : 3 <= w -> fits_u16 w -> fits_u16 h -> echo w line e -> List.length above + List.length e <= h -> typable line ->
  forall rest t u g, line = t ++ rest -> painted w h above u g -> ih_current (u_inputs u) = [Some t] -> ih_index (u_inputs u) = 0 -> l_cursor (u_line u) = List.length t ->
  exists u' g', live_events pr ord the_executor (keys_of rest) u g = (u', g', Waiting) /\ painted w h above u' g' /\ ih_current (u_inputs u') = [Some line] /\
    u_count u' = u_count u /\ session_of u' = type_in line (session_of u).
Proof.
  intros H3 Hu Hh Ee Fit Ty. induction rest as [|c rest IH]; intros t u g El P Ic Ix Lc.
  - rewrite app_nil_r in El. subst t. exists u, g. split; [reflexivity|]. split; [exact P|]. split; [exact Ic|]. split; [reflexivity|].
    unfold type_in, session_of. cbn [s_inputs s_args s_env]. do 2 f_equal. clear -Ic Ix. revert Ic Ix. generalize (u_inputs u). intros [a1 a2 a3 a4 a5] Ic Ix. cbn in Ic, Ix |- *. rewrite Ic, Ix. reflexivity.
  - assert (Tc : is_ascii c = true /\ c <> c_newline).
    { unfold is_ascii. rewrite N.ltb_lt. unfold typable in Ty. rewrite Forall_forall in Ty. apply Ty. rewrite El. apply in_app_iff. right. left. reflexivity. }
    destruct (echo_exists w (t ++ [c]) H3) as (e1 & Ee1).
    assert (F1 : List.length e1 <= List.length e) by (eapply (echo_grows w (t ++ [c]) line); eauto; rewrite El, !app_length; cbn; lia).
    destruct (char_live pr ord w h above u g t c e1 H3 Hu Hh P Ic Ix Lc (proj1 Tc) (proj2 Tc) Ee1 ltac:(lia)) as (u1 & g1 & L1 & P1 & Ic1 & Ix1 & Lc1 & Cn1 & S1).
    destruct (IH (t ++ [c]) u1 g1) as (u2 & g2 & L2 & P2 & Ic2 & Cn2 & S2); auto.
    { rewrite El, <- app_assoc. reflexivity. }
    exists u2, g2. split; [unfold keys_of in *; cbn [map live_events]; rewrite L1; exact L2|]. split; [exact P2|]. split; [exact Ic2|]. split; [congruence|]. rewrite S2, S1. apply type_in_twice.
Qed.
Lemma dialogue_live_run pr ord w h : (forall n, iterates (ord n)) -> 3 <= w -> fits_u16 w -> fits_u16 h -> forall lines n se se' replies above u g,
  dialogue pr ord the_executor n se lines se' replies -> n = u_count u -> se = session_of u -> painted w h above u g ->
  ih_current (u_inputs u) = [Some []] -> ih_index (u_inputs u) = 0 -> l_cursor (u_line u) = 0 -> Forall typable lines ->
  (forall rows phys, transcript (wide w) n replies rows -> folded_all w rows phys -> List.length above + List.length phys < h) ->
  exists u' g' rows phys, live_events pr ord the_executor (typing_lines lines) u g = (u', g', Waiting) /\ session_of u' = se' /\
    transcript (wide w) n replies rows /\ folded_all w rows phys /\ painted w h (above ++ phys) u' g' /\ shown (u_inputs u') = Ok [] /\ l_cursor (u_line u') = 0.
Proof.
  intros Ho H3 Hu Hh. induction lines as [|line lines IH]; intros n se se' replies above u g D En Es P Ic Ix Lc Ty Room.
  - inversion D; subst. exists u, g, [], []. rewrite app_nil_r. split; [reflexivity|]. split; [reflexivity|]. split; [constructor|]. split; [exists []; split; [constructor|reflexivity]|]. split; [exact P|].
    split; [unfold shown, current_line; rewrite Ic, Ix; reflexivity|exact Lc].
  - inversion D as [|? ? ? ? se1 r text ? rest C T D']; subst. apply Forall_cons_iff in Ty as [Ty Tys].
    destruct (echo_exists w line H3) as (e & Ee). destruct (rows_of_exists text) as (rw & Rw). destruct (folded_all_exists w rw ltac:(lia)) as (physr & Fr).
    assert (Fe: folded_all w e e) by (eapply echo_folded; eauto).
    assert (Room' : forall rows phys, transcript (wide w) (S (u_count u)) rest rows -> folded_all w rows phys -> List.length (above ++ e ++ physr) + List.length phys < h).
    { intros rows phys Tr Fo. pose proof (Room (e ++ rw ++ rows) (e ++ physr ++ phys) ltac:(econstructor; eauto) ltac:(apply folded_all_two; [exact Fe|apply folded_all_two; assumption])) as X.
      rewrite !app_length in *. lia. }
    assert (Ex : exists rows, transcript (wide w) (S (u_count u)) rest rows).
    { clear -H3. generalize (S (u_count u)). induction rest as [|[l t] rest IH]; intros n; [exists []; constructor|]. destruct (IH (S n)) as (rows & Tr). destruct (echo_exists w l H3) as (e & Ee). destruct (rows_of_exists t) as (rw & Rw).
      exists (e ++ rw ++ rows). econstructor; eauto. }
    destruct Ex as (rows0 & Tr0). destruct (folded_all_exists w rows0 ltac:(lia)) as (phys0 & Fo0). pose proof (Room' _ _ Tr0 Fo0) as R0. rewrite !app_length in R0.
    destruct (type_live pr ord w h above line e H3 Hu Hh Ee ltac:(lia) Ty line [] u g eq_refl P Ic Ix Lc) as (u1 & g1 & L1 & P1 & Ic1 & Cn1 & S1).
    rewrite <- S1, <- Cn1 in C.
    assert (Sh : shown (u_inputs u1) = Ok line).
    { assert (Ix1 : ih_index (u_inputs u1) = 0).
      { unfold session_of, type_in in S1. cbn [s_inputs] in S1. injection S1 as _ S1 _ _. rewrite S1. reflexivity. }
      unfold shown, current_line. rewrite Ic1, Ix1. reflexivity. }
    destruct (enter_live pr ord w h above 0 u1 g1 line se1 r text e rw physr Ho H3 Hu Hh P1 Sh C T Ee Rw Fr ltac:(lia)) as (u2 & g2 & L2 & P2 & S2 & Cn2 & Lc2 & Ic2 & Ix2).
    destruct (IH (S (u_count u)) se1 se' rest (above ++ e ++ physr) u2 g2 D' ltac:(congruence) (eq_sym S2) P2 Ic2 Ix2 Lc2 Tys Room') as (u3 & g3 & rows & phys & L3 & S3 & T3 & F3 & P3 & Sh3 & Lc3).
    exists u3, g3, (e ++ rw ++ rows), (e ++ physr ++ phys). split.
    { change (typing_lines (line :: lines)) with ((keys_of line ++ [enter_key]) ++ typing_lines lines). rewrite <- app_assoc, live_events_app, L1. cbn [app live_events]. unfold enter_key. rewrite L2. exact L3. }
    split; [exact S3|]. split; [econstructor; eauto|]. split; [apply folded_all_two; [exact Fe|apply folded_all_two; assumption]|]. split; [rewrite <- !app_assoc in P3; rewrite app_assoc in P3 |- *; exact P3|]. auto.
Qed.
Lemma dialogue_live pr ord w h g top a db lines se' replies : (forall n, iterates (ord n)) -> valid_settings a -> a_alternate_screen a = true ->
  (forall sd, db = Some sd -> program_file (sd_db sd) /\ forall t, In t (texts_of (sd_db sd)) -> ~ In c_newline t) ->
  Forall typable lines -> 3 <= w -> fits_u16 w -> fits_u16 h -> g_width g = w -> g_height g = h -> ready g top ->
  dialogue pr ord the_executor 0 (new_session a db) lines se' replies ->
  (forall rows phys, transcript (wide w) 0 replies rows -> folded_all w rows phys -> List.length top + List.length phys < h) ->
  exists u g' rows phys, live pr ord the_executor a db (typing_lines lines) g = (u, g', Waiting) /\ session_of u = se' /\
    transcript (wide w) 0 replies rows /\ folded_all w rows phys /\ edits_at g' (top ++ phys) [] 0.
Proof.
  intros Ho Ha Al Hd Ty H3 Hu Hh Gw Gh Rd D Room. destruct (begin_alternate pr w h top a db g Ha Al Hd H3 Hu Hh Gw Gh Rd) as (u0 & out0 & S0 & P0 & Ss0 & C0 & L0 & I0 & X0).
  destruct (dialogue_live_run pr ord w h Ho H3 Hu Hh lines 0 (new_session a db) se' replies top u0 (grid_after out0 g) D (eq_sym C0) (eq_sym Ss0) P0 I0 X0 L0 Ty Room) as (u & g' & rows & phys & L & S & T & F & P & Sh & Lc).
  exists u, g', rows, phys. split; [unfold live; rewrite S0; exact L|]. split; [exact S|]. split; [exact T|]. split; [exact F|].
  destruct (pa_edits _ _ _ _ _ P) as (line & El & Ed). rewrite Sh in El. apply ok_inj in El. subst line. rewrite Lc in Ed. exact Ed.
Qed.
