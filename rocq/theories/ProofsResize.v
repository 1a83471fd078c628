(** ProofsResize.v -- whatever happens to the window, the line being edited is shown. *)
From Verif Require Import Base Position Num TokenTypes Errors Token SavedData Variables InputHistory
  SyntaxTree Commands Calculate Editor Sessions SpecEval SpecHistory SpecEditor SpecCalc SpecSession SpecMain SpecTerminal SpecResize.
From Verif Require Import ProofsEval ProofsDb2 ProofsEditor ProofsEditor2 ProofsEditor3 ProofsEditor4 ProofsCalc4 ProofsCalc6 ProofsCalc7 ProofsCalc8 ProofsCommands2 ProofsSession ProofsKept ProofsTerminal ProofsTerminal2 ProofsTerminal3 ProofsTerminal4 ProofsTerminal5 ProofsTerminal6.
From Coq Require Import String Lia.
Local Open Scope nat_scope.
Local Open Scope list_scope.

(** ** Writing into the current row *)
Definition with_row (g : grid) (s : str) (col : nat) : grid := mkGrid (g_width g) (g_gone g) (set_row g s) (g_row g) col.
Lemma with_row_text g s c : onscreen g -> row_text (with_row g s c) = s.
Proof.
  unfold onscreen, g_height, row_text, with_row, set_row. cbn [g_row g_rows]. intros H. rewrite app_nth2; rewrite firstn_length; [|lia].
  replace (g_row g - Nat.min (g_row g) (List.length (g_rows g))) with 0 by lia. reflexivity.
Qed.
Lemma with_row_again g s c s' c' : onscreen g -> with_row (with_row g s c) s' c' = with_row g s' c'.
Proof.
  unfold onscreen, g_height, with_row, set_row. cbn [g_width g_gone g_row g_rows]. intros H. f_equal.
  assert (L : List.length (firstn (g_row g) (g_rows g)) = g_row g) by (rewrite firstn_length; lia).
  rewrite firstn_app, L, Nat.sub_diag. cbn [firstn]. rewrite app_nil_r, firstn_firstn, Nat.min_id. f_equal. f_equal.
  rewrite skipn_app, L. replace (S (g_row g) - g_row g) with 1 by lia. rewrite skipn_all2 by lia. reflexivity.
Qed.
Lemma with_row_on g s c : onscreen g -> onscreen (with_row g s c).
Proof. intros H. unfold onscreen, with_row, g_height in *. cbn [g_row g_rows]. change (List.length (set_row g s)) with (List.length (set_row g s)). rewrite (set_row_length g s H). exact H. Qed.
Lemma print_row t : forall g s, onscreen g -> ~ In c_newline t -> List.length s + List.length t <= g_width g ->
  on_grid (with_row g s (List.length s)) (Print t) = with_row g (s ++ t) (List.length (s ++ t)).
Proof.
  induction t as [|c t IH]; intros g s On Hn Hl; cbn [on_grid fold_left].
  - rewrite app_nil_r. reflexivity.
  - cbn [List.length] in Hl. assert (Hc : c <> c_newline) by (intros ->; apply Hn; left; reflexivity).
    assert (P : put (with_row g s (List.length s)) c = with_row g (s ++ [c]) (List.length (s ++ [c]))).
    { unfold put. destruct (N.eqb_spec c c_newline); [congruence|]. cbv zeta.
      assert (C : Nat.ltb (g_col (with_row g s (List.length s))) (g_width (with_row g s (List.length s))) = true) by (apply Nat.ltb_lt; cbn; lia).
      rewrite C. rewrite with_row_text by exact On. change (g_col (with_row g s (List.length s))) with (List.length s). rewrite write_end.
      change (mkGrid (g_width (with_row g s (List.length s))) (g_gone (with_row g s (List.length s))) (set_row (with_row g s (List.length s)) (s ++ [c])) (g_row (with_row g s (List.length s))) (S (List.length s)))
        with (with_row (with_row g s (List.length s)) (s ++ [c]) (S (List.length s))).
      rewrite with_row_again by exact On. rewrite app_length. cbn [List.length]. rewrite Nat.add_1_r. reflexivity. }
    rewrite P. specialize (IH g (s ++ [c]) On (fun I => Hn (or_intror I))). cbn [on_grid] in IH. rewrite IH; [rewrite <- app_assoc; reflexivity|].
    rewrite app_length. cbn [List.length]. lia.
Qed.

Lemma nth_firstn_lt {A} (l : list A) : forall n i, i < n -> nth_error (firstn n l) i = nth_error l i.
Proof. induction l as [|a l IH]; intros [|n] [|i] H; cbn; try lia; try reflexivity. apply IH. lia. Qed.
Lemma nth_skipn_at {A} (l : list A) : forall n i, nth_error (skipn n l) i = nth_error l (n + i).
Proof. induction l as [|a l IH]; intros [|n] i; cbn; try reflexivity; [destruct i; reflexivity|]. apply IH. Qed.

(** ** Inline: one display *)
Lemma drawn_inline pr l h l' out line g : display pr false false l h = Ok (l', out) -> shown h = Ok line -> l_cursor l <= List.length line ->
  l_cols l = g_width g -> 6 <= g_width g -> fits_u16 (g_width g) -> ~ In c_newline line -> onscreen g ->
  exists row col, grid_after out g = with_row g row col /\ row_shows (g_width g) line (l_cursor l) row col.
Proof.
  intros D Es Hc Ec H6 Hu Hn On. unfold display in D. unfold shown in Es. rewrite Es in D. cbn [bind orb] in D.
  destruct (scrolling_ok pr (l_cols l) (l_cursor l) (l_scroll l) line ltac:(lia) ltac:(rewrite Ec; exact Hu) Hc) as (off & opener & part & closer & E & P1 & P2 & P3 & P3' & P4 & P5).
  rewrite E in D. cbn [bind] in D. apply ok_pair in D as [_ <-]. rewrite Ec in *.
  exists (opener ++ part ++ closer), (2 + (l_cursor l - off)).
  assert (N1 : ~ In c_newline opener) by (rewrite P4; destruct (Nat.eqb off 0); intros [C|[C|[]]]; discriminate C).
  assert (N2 : ~ In c_newline part) by (rewrite P1; intros C; apply Hn; apply in_firstn' in C; apply in_skipn' in C; exact C).
  assert (N3 : ~ In c_newline closer) by (rewrite P5; destruct (Nat.ltb _ _); [intros [C|[C|[]]]; discriminate C|intros []]).
  assert (L1 : List.length opener = 2) by (rewrite P4; destruct (Nat.eqb off 0); reflexivity).
  assert (L2 : List.length part <= g_width g - 4) by (rewrite P1; apply firstn_le_length).
  assert (L3 : List.length closer <= 2) by (rewrite P5; destruct (Nat.ltb _ _); cbn; lia).
  split.
  - cbn [grid_after fold_left].
    assert (S0 : on_grid (on_grid g (MoveToColumn 0)) ClearCurrentLine = with_row g [] (@List.length N [])) by reflexivity.
    rewrite S0. rewrite print_row by (try assumption; cbn; lia). rewrite print_row by (try assumption; rewrite app_length; cbn [List.length]; lia).
    rewrite print_row by (try assumption; rewrite !app_length; cbn [List.length]; lia). cbn [app]. rewrite <- app_assoc.
    unfold with_row. cbn [on_grid g_width g_gone g_rows g_row]. f_equal. lia.
  - exists off. split; [exact P2|]. split; [auto|]. split; [rewrite P4, P1, P5; reflexivity|]. split; [reflexivity|]. split; [lia|].
    split; [rewrite !app_length; lia|]. intros Hl.
    rewrite nth_error_app2 by lia. rewrite L1. replace (2 + (l_cursor l - off) - 2) with (l_cursor l - off) by lia.
    assert (Hp : l_cursor l - off < List.length part) by (rewrite P1, firstn_length, skipn_length; lia).
    rewrite nth_error_app1 by exact Hp. rewrite P1. rewrite nth_firstn_lt by lia. rewrite nth_skipn_at. f_equal. lia.
Qed.

(** ** Alternate: one display *)
Definition add_gone (p : list str) (g : grid) : grid := mkGrid (g_width g) (p ++ g_gone g) (g_rows g) (g_row g) (g_col g).
Lemma feed_gone p g : line_feed (add_gone p g) = add_gone p (line_feed g).
Proof. unfold line_feed. change (g_height (add_gone p g)) with (g_height g). cbn [add_gone g_row g_rows g_width g_gone g_col]. destruct (Nat.ltb _ _); unfold add_gone; cbn [g_row g_rows g_width g_gone g_col]; [reflexivity|]. rewrite app_assoc. reflexivity. Qed.
Lemma put_gone p g c : put (add_gone p g) c = add_gone p (put g c).
Proof.
  unfold put. destruct (N.eqb c c_newline); [apply feed_gone|]. cbv zeta. change (g_col (add_gone p g)) with (g_col g). change (g_width (add_gone p g)) with (g_width g).
  destruct (Nat.ltb (g_col g) (g_width g)); [reflexivity|]. rewrite feed_gone. reflexivity.
Qed.
Lemma on_grid_gone p g c : on_grid (add_gone p g) c = add_gone p (on_grid g c).
Proof.
  destruct c; try reflexivity. cbn [on_grid]. revert g. induction s as [|c s IH]; intros g; [reflexivity|]. cbn [fold_left]. rewrite put_gone. apply IH.
Qed.
Lemma grid_gone p cmds : forall g, grid_after cmds (add_gone p g) = add_gone p (grid_after cmds g).
Proof. induction cmds as [|c cmds IH]; intros g; [reflexivity|]. cbn [grid_after fold_left]. rewrite on_grid_gone. apply IH. Qed.
Lemma drawn_alternate pr l h l' out line g r e : display pr true false l h = Ok (l', out) -> shown h = Ok line -> l_cursor l <= List.length line ->
  l_cols l = g_width g -> l_start l = (0, r) -> 3 <= g_width g -> fits_u16 (g_width g) -> fits_u16 (g_height g) -> ~ In c_newline line -> onscreen g ->
  echo (g_width g) line e -> r + List.length e <= g_height g ->
  rows_show (grid_after out g) r line (l_cursor l) /\ g_gone (grid_after out g) = g_gone g /\ firstn r (g_rows (grid_after out g)) = firstn r (g_rows g).
Proof.
  intros D Es Hc Ec El H3 Hu Hh Hn On Ee Fit.
  assert (Le : 1 <= List.length e) by (destruct Ee as (? & ? & -> & _); cbn; lia).
  set (above := firstn r (g_rows g)). assert (La : List.length above = r) by (unfold above, g_height in *; rewrite firstn_length; lia).
  set (g0 := mkGrid (g_width g) [] (g_rows g) (g_row g) (g_col g)).
  assert (Eg : g = add_gone (g_gone g) g0) by (destruct g; unfold add_gone, g0; cbn; rewrite app_nil_r; reflexivity).
  assert (Tp : topped g0 above) by (split; [exact On|]; split; [reflexivity|]; rewrite La; split; [reflexivity|change (g_height g0) with (g_height g); lia]).
  destruct (redraw_alternate pr (g_width g) l h line g0 above e Es Ec) as (out' & D' & (e' & blanks & Ee' & Gg & Gr & Cu) & _ & Gw & Gh); try assumption; try (rewrite La; assumption).
  { reflexivity. }
  rewrite D in D'. apply ok_pair in D' as [_ <-]. set (gx := grid_after out g0) in *.
  assert (Ex : grid_after out g = add_gone (g_gone g) gx) by (rewrite Eg at 1; apply grid_gone). rewrite Ex.
  split; [|split; [cbn [add_gone g_gone]; rewrite Gg, app_nil_r; reflexivity|]].
  - exists e', blanks. split; [exact Ee'|]. split; [cbn [add_gone g_rows]; rewrite Gr, <- La; apply skipn_len|].
    rewrite La in Cu. exact Cu.
  - cbn [add_gone g_rows]. rewrite Gr. rewrite <- La at 1. apply firstn_len.
Qed.

(** ** One event *)
Lemma display_state pr alt l h l' out : display pr alt false l h = Ok (l', out) -> l_start l' = l_start l /\ l_cols l' = l_cols l /\ l_cursor l' = l_cursor l.
Proof.
  unfold display. destruct (current_line h) as [t|e|p]; cbn [bind]; try discriminate. destruct (alt || false).
  - destruct (display_wrapped _ _ _ _ _ _ _) as [o|e|p]; cbn [bind]; try discriminate. intros E. apply ok_pair in E as [<- _]. auto.
  - destruct (display_scrolling _ _ _ _ _) as [[o o2]|e|p]; cbn [bind]; try discriminate. intros E. apply ok_pair in E as [<- _]. auto.
Qed.
Lemma resize_cols ev l h db : let '(l', _, _, _) := handle_event ev l h db in forall w, ev = EvResize w -> l_cols l' = w /\ snd (handle_event ev l h db) = ARedraw.
Proof. destruct (handle_event ev l h db) as [[[l' h'] db'] act] eqn:E. intros w ->. cbn [handle_event] in *. injection E as <- <- <- <-. auto. Qed.
Lemma no_width_display pr alt h : forall l out, display pr alt false (mkLine 0 0 (0, 0) 0) h <> Ok (l, out).
Proof.
  intros l out D. unfold display in D. destruct (current_line h) as [t|e|p]; cbn [bind] in D; try discriminate D. destruct alt; cbn [orb l_cols] in D; discriminate D.
Qed.
Lemma alternate_output_ends text : exists f, print_output true text = f ++ [MoveToNextLine 1].
Proof.
  unfold print_output. destruct (split_lines_spec text [] (fun x => x)) as (A & _). destruct (exists_last A) as (rows & r & ->).
  exists (flat_map (fun line => Print line :: [MoveToNextLine 1]) rows ++ [Print r]). rewrite flat_map_app. cbn [flat_map app]. rewrite <- app_assoc. reflexivity.
Qed.
Lemma enter_waits pr ord tm mods u u1 out : ui_step pr ord the_executor tm (EvKey KEnter mods) u = (u1, out, Waiting) ->
  exists front last, out = front ++ last /\ a_alternate_screen (u_args u1) = a_alternate_screen (u_args u) /\
    snd (fst (ui_step pr ord the_executor no_width (EvKey KEnter mods) u)) = front /\
    (a_alternate_screen (u_args u) = true -> exists f, front = f ++ [MoveToNextLine 1]) /\
    display pr (a_alternate_screen (u_args u)) false (mkLine 0 0 (fst (tm (u_count u1))) (snd (tm (u_count u1)))) (u_inputs u1) = Ok (u_line u1, last).
Proof.
  unfold ui_step. cbn [handle_event]. unfold finish_line. cbv zeta. cbn [u_args u_vars u_db u_inputs u_line u_count].
  destruct (display pr (a_alternate_screen (u_args u)) true (u_line u) (u_inputs u)) as [[l1 out1]|e|p]; [|intros E; apply pair_equal_spec in E as [_ E]; discriminate E..].
  destruct (current_line (u_inputs u)) as [input|e|p]; [|intros E; apply pair_equal_spec in E as [_ E]; discriminate E..].
  destruct (calculate pr (ord (u_count u)) the_executor input _) as [se' r] eqn:C. pose proof (line_screen _ _ _ _ _ _ C) as Sc. cbn [s_args] in Sc.
  destruct (render r) as [text|e|p]; [|intros E; apply pair_equal_spec in E as [_ E]; discriminate E..].
  unfold start_line. cbv zeta. cbn [u_args u_vars u_db u_inputs u_line u_count]. rewrite Sc.
  set (h := match s_inputs se' with Some h => h | None => u_inputs u end).
  assert (Nw : forall X, snd (fst (let '(u'', out3, st) := match display pr (a_alternate_screen (u_args u)) false (mkLine 0 0 (fst (no_width (S (u_count u)))) (snd (no_width (S (u_count u))))) h with
    | Ok (l', out) => X l' out
    | Err e => (mkUi (s_args se') (match e_vars (s_env se') with Some v => v | None => u_vars u end) (e_db (s_env se')) h (mkLine 0 0 (fst (no_width (S (u_count u)))) (snd (no_width (S (u_count u))))) (S (u_count u)), [], Failed e)
    | Panic p => (mkUi (s_args se') (match e_vars (s_env se') with Some v => v | None => u_vars u end) (e_db (s_env se')) h (mkLine 0 0 (fst (no_width (S (u_count u)))) (snd (no_width (S (u_count u))))) (S (u_count u)), [], Crashed p)
    end in (u'', out1 ++ print_output (a_alternate_screen (u_args u)) text ++ out3, st))) = out1 ++ print_output (a_alternate_screen (u_args u)) text).
  { intros X. destruct (display pr _ false (mkLine 0 0 (fst (no_width _)) _) h) as [[l' o]|e|p] eqn:D; [destruct (no_width_display _ _ _ _ _ D)| |]; cbn [fst snd]; rewrite app_nil_r; reflexivity. }
  destruct (display pr (a_alternate_screen (u_args u)) false (mkLine 0 0 (fst (tm (S (u_count u)))) (snd (tm (S (u_count u))))) h) as [[l' o]|e|p] eqn:D;
    intros E; apply pair_equal_spec in E as [E St]; try discriminate St. apply pair_equal_spec in E as [<- <-]. cbn [u_args u_inputs u_line u_count].
  exists (out1 ++ print_output (a_alternate_screen (u_args u)) text), o. split; [rewrite <- app_assoc; reflexivity|]. split; [exact Sc|]. split; [apply Nw|].
  split; [|exact D]. intros ->. destruct (alternate_output_ends text) as (f & ->). exists (out1 ++ f). rewrite <- app_assoc. reflexivity.
Qed.

(** ** The invariant *)
Definition drawn (alt : bool) (u : ui) (g : grid) : Prop := forall line, shown (u_inputs u) = Ok line -> ~ In c_newline line -> fits_u16 (g_width g) ->
  if alt then forall e, 3 <= g_width g -> fits_u16 (g_height g) -> echo (g_width g) line e -> first_row u + List.length e <= g_height g ->
    rows_show g (first_row u) line (l_cursor (u_line u))
  else 6 <= g_width g -> row_shows (g_width g) line (l_cursor (u_line u)) (row_text g) (fst (cursor_of g)).
Record following (alt : bool) (u : ui) (g : grid) : Prop := mkFollowing
  { fo_ok : ui_ok u; fo_mode : a_alternate_screen (u_args u) = alt; fo_cols : l_cols (u_line u) = g_width g; fo_on : onscreen g;
    fo_start : alt = true -> fst (l_start (u_line u)) = 0; fo_drawn : drawn alt u g }.
Lemma display_follows pr alt l u1 out g : display pr alt false l (u_inputs u1) = Ok (u_line u1, out) -> a_alternate_screen (u_args u1) = alt -> ui_ok u1 ->
  l_cols l = g_width g -> onscreen g -> (alt = true -> fst (l_start l) = 0) -> following alt u1 (grid_after out g).
Proof.
  intros D Em Ok1 Ec On Es. destruct (display_state _ _ _ _ _ _ D) as (S1 & S2 & S3). destruct (grid_size out g On) as (On' & Eh & Ew).
  constructor; [exact Ok1|exact Em|congruence|exact On'|rewrite S1; exact Es|].
  intros line El Hn Hu. destruct Ok1 as (_ & t & Et & Hc). rewrite El in Et. injection Et as <-. rewrite S3 in Hc. destruct alt.
  - rewrite Eh, Ew. intros e H3 Hh Ee Fit. rewrite Ew in Hu. unfold first_row in *. rewrite S1 in *. rewrite S3.
    eapply drawn_alternate; eauto. specialize (Es eq_refl). destruct (l_start l) as [c r]. cbn in *. congruence.
  - rewrite Ew in *. intros H6. destruct (drawn_inline pr l (u_inputs u1) (u_line u1) out line g D El Hc Ec H6 Hu Hn On) as (row & col & E & R).
    rewrite S3, E, with_row_text by exact On. unfold cursor_of. cbn [with_row g_col g_width fst].
    replace (Nat.min col (g_width g - 1)) with col by (destruct R as (? & _ & _ & _ & _ & ? & _); lia). exact R.
Qed.
Lemma live_follows pr ord alt ev u g u1 g1 : (forall w, ev = EvResize w -> g_width g = w) -> (resizes ev \/ following alt u g) ->
  ui_ok u -> a_alternate_screen (u_args u) = alt -> (alt = true -> fst (l_start (u_line u)) = 0) -> onscreen g ->
  live_step pr ord the_executor ev u g = (u1, g1, Waiting) -> following alt u1 g1.
Proof.
  intros Hw F Hok Em Es On L. unfold live_step in L. cbv zeta in L. set (asked := snd (fst (ui_step pr ord the_executor no_width ev u))) in L.
  set (tm := answering (grid_after asked g)) in L. destruct (ui_step pr ord the_executor tm ev u) as [[u2 out] st] eqn:St.
  apply pair_equal_spec in L as [L ->]. apply pair_equal_spec in L as [-> <-].
  assert (Ok1 : ui_ok u1) by (pose proof (ui_step_ok pr ord the_executor tm ev u Hok) as K; rewrite St in K; apply K; reflexivity).
  destruct (grid_size asked g On) as (Ona & Eha & Ewa).
  assert (Dec : (exists mods, ev = EvKey KEnter mods) \/ forall mods, ev <> EvKey KEnter mods).
  { destruct ev as [[] mods| | |]; try (right; intros; discriminate). left. eauto. }
  destruct Dec as [[mods ->]|Hne].
  - destruct (enter_waits _ _ _ _ _ _ _ St) as (front & last & -> & Ea & As & Fr & D). fold asked in As. rewrite grid_app, <- As.
    eapply display_follows; [rewrite <- Em; exact D|congruence|exact Ok1|reflexivity|exact Ona|].
    intros Ha. cbn [l_start tm answering fst]. destruct (Fr ltac:(congruence)) as (f & Ef). rewrite As, Ef, grid_app. reflexivity.
  - unfold ui_step in St. pose proof (handle_event_minds ev (u_line u) (u_inputs u) (u_db u) (proj1 Hok)) as Mi.
    pose proof (resize_cols ev (u_line u) (u_inputs u) (u_db u)) as Rc. pose proof (handle_event_cols ev (u_line u) (u_inputs u) (u_db u)) as Co.
    destruct (handle_event ev (u_line u) (u_inputs u) (u_db u)) as [[[l' h'] db'] act]. cbn [minds snd] in *. destruct Mi as (Ms & Mi & Me). destruct act.
    + apply pair_equal_spec in St as [St _]. apply pair_equal_spec in St as [<- <-]. destruct (Mi eq_refl) as [-> Sh].
      destruct F as [[w ->]|F]; [destruct (Rc w eq_refl) as [_ X]; discriminate X|].
      destruct F as [A B C D E G]. constructor; [exact Ok1|exact B|exact C|exact D|exact E|]. intros line El. apply G. cbn [u_inputs] in El. congruence.
    + destruct (display pr _ false l' h') as [[l'' o]|e|p] eqn:Di; [|apply pair_equal_spec in St as [_ St]; discriminate St..].
      apply pair_equal_spec in St as [St _]. apply pair_equal_spec in St as [<- <-].
      eapply display_follows; [cbn [u_inputs u_line]; rewrite <- Em; exact Di|exact Em|exact Ok1| |exact On|rewrite Ms; exact Es].
      assert (Dr : {w | ev = EvResize w} + {~ resizes ev}) by (destruct ev as [| |w|]; [right; intros (? & X); discriminate X|right; intros (? & X); discriminate X|left; exists w; reflexivity|right; intros (? & X); discriminate X]).
      destruct Dr as [[w Ew]|Hr]; [rewrite (Hw _ Ew); apply (Rc w Ew)|]. rewrite (Co Hr). destruct F as [F|F]; [destruct (Hr F)|apply (fo_cols _ _ _ F)].
    + destruct (Me eq_refl) as (mods & X). destruct (Hne _ X).
    + apply pair_equal_spec in St as [_ St]. discriminate St.
    + apply pair_equal_spec in St as [_ St]. discriminate St.
    + apply pair_equal_spec in St as [_ St]. discriminate St.
Qed.
Lemma run_follows pr ord alt evs u g u' g' : resized_run pr ord the_executor evs u g u' g' -> following alt u g -> following alt u' g'.
Proof.
  induction 1 as [|w evs u g g' u1 g1 u2 g2 Ew On L R IH|ev evs u g u1 g1 u2 g2 Hr L R IH]; intros F; [exact F| |]; apply IH; clear IH R.
  - eapply live_follows; [|left; exists w; reflexivity|exact (fo_ok _ _ _ F)|exact (fo_mode _ _ _ F)|exact (fo_start _ _ _ F)|exact On|exact L]. intros w' E. injection E as ->. exact Ew.
  - eapply live_follows; [|right; exact F|exact (fo_ok _ _ _ F)|exact (fo_mode _ _ _ F)|exact (fo_start _ _ _ F)|exact (fo_on _ _ _ F)|exact L]. intros w ->. destruct Hr. exists w. reflexivity.
Qed.
Lemma session_follows pr ord a db evs g u g' : resized_session pr ord the_executor a db evs g u g' -> (a_alternate_screen a = true -> fst (cursor_of g) = 0) ->
  following (a_alternate_screen a) u g'.
Proof.
  intros (On & u0 & out & St & R) Hc. eapply run_follows; [exact R|]. clear R.
  assert (Ok0 : ui_ok u0).
  { pose proof (interactive_ok pr ord the_executor (answering g) a db []) as K. unfold interactive in K. rewrite St in K. cbn [run_events fst snd] in K. apply K. reflexivity. }
  unfold interactive_start, start_line in St. cbv zeta in St. cbn [u_args u_vars u_db u_inputs u_line u_count answering fst snd] in St.
  match type of St with context [display ?a ?b ?c ?d ?e] => destruct (display a b c d e) as [[l' o]|e0|p0] eqn:D end; [|apply pair_equal_spec in St as [_ St]; discriminate St..].
  apply pair_equal_spec in St as [St _]. apply pair_equal_spec in St as [<- <-].
  eapply display_follows; [exact D|reflexivity|exact Ok0|reflexivity|exact On|exact Hc].
Qed.
