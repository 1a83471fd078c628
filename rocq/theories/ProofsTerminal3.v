(** ProofsTerminal3.v -- the size of the terminal, scrolling, and whole sessions in inline mode. *)
From Verif Require Import Base Position Num TokenTypes Errors Token SavedData Variables InputHistory
  SyntaxTree Commands Calculate Editor Sessions SpecEval SpecHistory SpecEditor SpecCalc SpecSession SpecMain SpecTerminal.
From Verif Require Import ProofsEval ProofsDb2 ProofsEditor3 ProofsCalc4 ProofsSession ProofsTerminal ProofsTerminal2.
From Coq Require Import String Lia.
Local Open Scope nat_scope.
Local Open Scope list_scope.

(** The cursor is on the screen, and commands do not change the size. *)
Definition onscreen (g : grid) : Prop := g_row g < g_height g.
Lemma set_row_length g s : onscreen g -> List.length (set_row g s) = g_height g.
Proof. unfold onscreen, g_height, set_row. intros H. rewrite !app_length, firstn_length, skipn_length. cbn. lia. Qed.
Lemma feed_size g : onscreen g -> onscreen (line_feed g) /\ g_height (line_feed g) = g_height g /\ g_width (line_feed g) = g_width g.
Proof.
  unfold onscreen, line_feed. intros H. destruct (Nat.ltb_spec (S (g_row g)) (g_height g)); cbn; unfold g_height in *; cbn; [repeat split; lia|].
  assert (List.length (skipn 1 (g_rows g) ++ [[]]) = List.length (g_rows g)) as E by (rewrite app_length, skipn_length; cbn; lia). 
  change (match g_rows g with [] => [] | _ :: l => l end) with (skipn 1 (g_rows g)). rewrite E. auto.
Qed.
Lemma put_size g c : onscreen g -> onscreen (put g c) /\ g_height (put g c) = g_height g /\ g_width (put g c) = g_width g.
Proof.
  intros H. unfold put. destruct (N.eqb c c_newline); [apply feed_size; exact H|]. cbv zeta.
  assert (K : forall g1, onscreen g1 -> g_height g1 = g_height g -> g_width g1 = g_width g -> forall s k, let g2 := mkGrid (g_width g1) (g_gone g1) (set_row g1 s) (g_row g1) k in
    onscreen g2 /\ g_height g2 = g_height g /\ g_width g2 = g_width g).
  { intros g1 H1 E1 E2 s k g2. pose proof (set_row_length g1 s H1) as E. unfold onscreen, g_height in *. cbn [g2 g_rows g_row g_width]. rewrite E. auto. }
  destruct (Nat.ltb _ _); [apply K; auto|]. destruct (feed_size g H) as (A & B & C). apply K; auto.
Qed.
Lemma on_grid_size g c : onscreen g -> onscreen (on_grid g c) /\ g_height (on_grid g c) = g_height g /\ g_width (on_grid g c) = g_width g.
Proof.
  intros H. destruct c; cbn [on_grid]; unfold onscreen, g_height in *; cbn [g_rows g_row g_width]; try (repeat split; lia).
  - assert (List.length (firstn (g_row g) (g_rows g) ++ [firstn (g_col g) (row_text g)] ++ repeat [] (List.length (g_rows g) - S (g_row g))) = List.length (g_rows g)) as E.
    { rewrite !app_length, firstn_length, repeat_length. cbn. lia. }
    rewrite E. auto.
  - rewrite set_row_length by exact H. auto.
  - revert g H. induction s as [|x s IH]; intros g H; cbn [fold_left]; [auto|]. destruct (put_size g x H) as (A & B & C). destruct (IH _ A) as (A' & B' & C'). unfold g_height in *. split; [exact A'|]. split; congruence.
Qed.
Lemma grid_size cmds : forall g, onscreen g -> onscreen (grid_after cmds g) /\ g_height (grid_after cmds g) = g_height g /\ g_width (grid_after cmds g) = g_width g.
Proof.
  induction cmds as [|c cmds IH]; intros g H; [auto|]. change (grid_after (c :: cmds) g) with (grid_after cmds (on_grid g c)).
  destruct (on_grid_size g c H) as (A & B & C). destruct (IH _ A) as (A' & B' & C'). split; [exact A'|]. split; congruence.
Qed.
(** Rows scroll off only at the bottom. *)
Definition tight (g : grid) : Prop := onscreen g /\ (g_gone g = [] \/ S (g_row g) = g_height g).
Lemma feed_tight g : tight g -> tight (line_feed g).
Proof.
  intros (H & T). destruct (feed_size g H) as (A & B & _). split; [exact A|]. rewrite B. unfold line_feed, onscreen in *. destruct (Nat.ltb_spec (S (g_row g)) (g_height g)); cbn; [destruct T; [auto|lia]|right; lia].
Qed.
Lemma put_tight g c : tight g -> tight (put g c).
Proof.
  intros T. unfold put. destruct (N.eqb c c_newline); [apply feed_tight; exact T|]. cbv zeta.
  assert (K : forall g1, tight g1 -> forall s k, tight (mkGrid (g_width g1) (g_gone g1) (set_row g1 s) (g_row g1) k)).
  { intros g1 (H1 & T1) s k. pose proof (set_row_length g1 s H1) as E. unfold tight, onscreen, g_height in *. cbn [g_rows g_row g_gone]. rewrite E. auto. }
  destruct (Nat.ltb _ _); [apply K; exact T|]. apply K. exact (feed_tight _ T).
Qed.
Definition stays (c : tcmd) : Prop := match c with Print _ | MoveToColumn _ | ClearCurrentLine => True | _ => False end.
Lemma stays_tight cmds : Forall stays cmds -> forall g, tight g -> tight (grid_after cmds g).
Proof.
  induction 1 as [|c cmds Hc H IH]; intros g T; [exact T|]. change (grid_after (c :: cmds) g) with (grid_after cmds (on_grid g c)). apply IH.
  destruct c; try destruct Hc; cbn [on_grid].
  - exact T.
  - destruct T as (H1 & T1). pose proof (set_row_length g [] H1) as E. unfold tight, onscreen, g_height in *. cbn [g_rows g_row g_gone]. rewrite E. auto.
  - clear IH. revert g T. induction s as [|x s IH]; intros g T; cbn [fold_left]; [exact T|]. apply IH, put_tight, T.
Qed.
Lemma tidy_stays cmds : tidy cmds -> Forall stays cmds.
Proof. induction 1; repeat constructor; auto. Qed.
Lemma neat_stays w cmds : neat w cmds -> Forall stays cmds.
Proof. induction 1 as [| | |text rows row cmds T]; repeat constructor; auto. apply Forall_app. split; [apply tidy_stays; exact T|assumption]. Qed.

Lemma tape_displays g above row : tape g above row -> tight g -> displays g above row (Nat.min (g_col g) (g_width g - 1)).
Proof.
  intros T (On & G). assert (T' := T). destruct T' as (up & k & Ea & Er & Ec). split; [rewrite Er, Ec, firstn_exact; exact Ea|]. split; [eapply tape_row; exact T|].
  split; [rewrite Er, Ec, skipn_past; apply Forall_forall; intros x X; apply repeat_spec in X; exact X|]. split; [reflexivity|]. split; [exact On|exact G].
Qed.
Lemma all_repeat (l : list str) : Forall (fun r => r = []) l -> l = repeat [] (List.length l).
Proof. induction 1 as [|r l -> H IH]; [reflexivity|]. cbn. rewrite <- IH. reflexivity. Qed.
Lemma displays_tape g above row col : displays g above row col -> tape g above row /\ tight g.
Proof.
  intros (A & R & B & _ & On & G). split; [|split; assumption]. exists (firstn (g_row g) (g_rows g)), (List.length (skipn (S (g_row g)) (g_rows g))). split; [exact A|].
  unfold onscreen, g_height in On. split; [|rewrite firstn_length; lia]. rewrite <- (all_repeat _ B), <- R. unfold row_text.
  rewrite <- (firstn_skipn (g_row g) (g_rows g)) at 1. f_equal. clear -On. revert On. generalize (g_row g). induction (g_rows g) as [|x l IH]; intros n On; [cbn in On; lia|]. destruct n; [reflexivity|]. cbn [skipn nth]. apply IH. cbn in On. lia.
Qed.
Lemma session_on_terminal pr ord tm w g before a db evs u out st : (forall n, iterates (ord n)) -> valid_settings a -> a_alternate_screen a = false ->
  (forall sd, db = Some sd -> program_file (sd_db sd) /\ forall t, In t (texts_of (sd_db sd)) -> ~ In c_newline t) ->
  6 <= w -> fits_u16 w -> (forall n, snd (tm n) = w) -> g_width g = w -> displays g before [] 0 -> undisturbed evs ->
  interactive pr ord the_executor tm a db evs = (u, out, st) ->
  let s := screen_after out blank in
  exists rows, folded_all w (sc_above s) rows /\ displays (grid_after out g) (before ++ rows) (sc_row s) (Nat.min (sc_col s) (w - 1)).
Proof.
  intros Ho Ha Al Hd H6 Hu Ew Gw Di Hev E s. destruct (displays_tape _ _ _ _ Di) as (T0 & T1).
  assert (Gc : g_col g = 0).
  { destruct Di as (_ & _ & _ & C & _). unfold cursor_of in C. apply pair_equal_spec in C as [C _]. lia. }
  destruct (interactive_pictured pr ord tm w before g a db evs u out st Ho Ha Al Hd H6 Hu T0 Gw Gc Ew Hev E) as (rows & F & T & Gw' & _ & Gc' & _). exists rows. split; [exact F|].
  pose proof (interactive_neat pr ord tm w a db evs Ho Ha Al Hd H6 Hu Ew Hev) as N. rewrite E in N. cbn [fst snd] in N.
  pose proof (tape_displays _ _ _ T (stays_tight _ (neat_stays _ _ N) _ T1)) as D. rewrite Gc', Gw' in D. exact D.
Qed.
Lemma typing_undisturbed lines : Forall typable lines -> undisturbed (typing_lines lines).
Proof.
  intros H. apply Forall_forall. intros ev I. unfold typing_lines in I. apply in_flat_map in I as (l & Il & I). rewrite Forall_forall in H. specialize (H _ Il).
  apply in_app_iff in I as [I|[<-|[]]].
  - apply in_map_iff in I as (c & <- & Ic). unfold typable in H. rewrite Forall_forall in H. destruct (H _ Ic) as [_ Hc]. split; [intros (k & X); discriminate X|]. intros (m & X). injection X as X _. apply Hc. exact X.
  - split; [intros (k & X)|intros (m & X)]; discriminate X.
Qed.
Lemma dialogue_on_terminal pr ord tm w g before a db lines se' replies : (forall n, iterates (ord n)) -> valid_settings a -> a_alternate_screen a = false ->
  (forall sd, db = Some sd -> program_file (sd_db sd) /\ forall t, In t (texts_of (sd_db sd)) -> ~ In c_newline t) ->
  Forall typable lines -> 6 <= w -> fits_u16 w -> (forall n, snd (tm n) = w) -> g_width g = w -> displays g before [] 0 ->
  roomy tm 0 -> (forall line, In line lines -> roomy tm (List.length line)) ->
  dialogue pr ord the_executor 0 (new_session a db) lines se' replies ->
  exists u out rows phys, interactive pr ord the_executor tm a db (typing_lines lines) = (u, out, Waiting) /\
    transcript tm 0 replies rows /\ folded_all w rows phys /\ displays (grid_after out g) (before ++ phys) (lit "# ") 2.
Proof.
  intros Ho Ha Al Hd Ht H6 Hu Ew Gw D0 R0 Rl D.
  destruct (dialogue_interactive pr ord tm a db lines se' replies Ho Ha Al (fun sd E => proj1 (Hd sd E)) Ht R0 Rl D) as (u & out & rows & E & _ & T & _ & S).
  destruct (session_on_terminal pr ord tm w g before a db (typing_lines lines) u out Waiting Ho Ha Al Hd H6 Hu Ew Gw D0 (typing_undisturbed _ Ht) E) as (phys & F & Di).
  rewrite S in F, Di. cbn [sc_above sc_row sc_col] in F, Di. exists u, out, rows, phys. split; [exact E|]. split; [exact T|]. split; [exact F|].
  replace (Nat.min 2 (w - 1)) with 2 in Di by lia. exact Di.
Qed.

(** Folding is a function. *)
Lemma folded_unique w : 1 <= w -> forall n s r r', List.length s <= n -> folded w s r -> folded w s r' -> r = r'.
Proof.
  intros Hw. 
  assert (First : forall s r, folded w s r -> (List.length s <= w /\ r = [s]) \/ exists r1, w < List.length s /\ r = firstn w s :: r1 /\ folded w (skipn w s) r1).
  { intros s r ([|x front] & last & -> & E2 & E3 & E4 & E5).
    - left. cbn in E2. rewrite app_nil_r in E2. subst last. auto.
    - right. apply Forall_cons_iff in E3 as [Ex E3]. cbn [app List.concat] in E2. exists (front ++ [last]).
      assert (s <> [] -> last <> []) as Nl by (intros Hs X; apply Hs, E5, X). 
      assert (Hs : List.length s = w + List.length (List.concat (front ++ [last]))) by (rewrite <- E2, app_length, Ex; reflexivity).
      assert (Hl : last <> []) by (apply Nl; intros ->; cbn in Hs; lia). rewrite concat_app, app_length in Hs. cbn in Hs. rewrite app_nil_r in Hs.
      assert (List.length last <> 0) by (destruct last; [congruence|cbn; lia]). split; [lia|]. split.
      + rewrite <- E2, <- Ex, firstn_exact. reflexivity.
      + exists front, last. split; [reflexivity|]. split; [rewrite <- E2, <- Ex, skipn_app, skipn_all, Nat.sub_diag; reflexivity|]. split; [exact E3|]. split; [exact E4|]. intros X. contradiction. }
  induction n as [|n IH]; intros s r r' Hn H H'; destruct (First _ _ H) as [(L & ->)|(r1 & L & -> & F)], (First _ _ H') as [(L' & ->)|(r1' & L' & -> & F')]; try lia; auto.
  f_equal. apply (IH (skipn w s)); auto. rewrite skipn_length. lia.
Qed.
Lemma folded_all_unique w texts rows rows' : 1 <= w -> folded_all w texts rows -> folded_all w texts rows' -> rows = rows'.
Proof.
  intros Hw (p & F & ->) (p' & F' & ->). f_equal. revert p' F'. induction F as [|t r texts p H F IH]; intros p' F'; inversion F' as [|? r' ? p1 H' F1]; subst; [reflexivity|].
  f_equal; [eapply folded_unique; eauto|apply IH; exact F1].
Qed.
Lemma folded_exists w s : 1 <= w -> exists rows, folded w s rows.
Proof.
  intros Hw. destruct s as [|c s]; [exists [[]]; apply folded_short; cbn; lia|]. exists (chunks (List.length (c :: s)) w (c :: s)). apply chunks_folded; [lia|discriminate|lia].
Qed.
Lemma folded_all_exists w texts : 1 <= w -> exists rows, folded_all w texts rows.
Proof.
  intros Hw. induction texts as [|t texts (rows & p & F & ->)]; [exists [], []; split; [constructor|reflexivity]|]. destruct (folded_exists w t Hw) as (r & Hr).
  exists (r ++ List.concat p), (r :: p). split; [constructor; assumption|reflexivity].
Qed.
