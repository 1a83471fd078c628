(** ProofsTerminal.v -- the inline mode on a terminal with a size. *)
From Verif Require Import Base Position Num TokenTypes Errors Token SavedData Variables InputHistory
  SyntaxTree Commands Calculate Editor Sessions SpecEval SpecHistory SpecEditor SpecCalc SpecSession SpecTerminal.
From Verif Require Import ProofsEval ProofsDb2 ProofsEditor ProofsEditor2 ProofsEditor3 ProofsEditor4 ProofsSession.
From Coq Require Import String Lia.
Local Open Scope nat_scope.
Local Open Scope list_scope.

(** ** The screen as a tape: everything above the cursor's row (scrolled off or not), that row, nothing below *)
Definition tape (g : grid) (above : list str) (row : str) : Prop :=
  exists upper k, g_gone g ++ upper = above /\ g_rows g = upper ++ row :: repeat [] k /\ g_row g = List.length upper.
Lemma tape_row g above row : tape g above row -> row_text g = row.
Proof. intros (up & k & _ & Er & Ec). unfold row_text. rewrite Er, Ec, app_nth2, Nat.sub_diag by lia. reflexivity. Qed.
Lemma firstn_exact {A} (a b : list A) : firstn (List.length a) (a ++ b) = a.
Proof. rewrite firstn_app, firstn_all, Nat.sub_diag. apply app_nil_r. Qed.
Lemma skipn_past {A} (a : list A) x b : skipn (S (List.length a)) (a ++ x :: b) = b.
Proof. rewrite skipn_app, skipn_all2 by lia. replace (S (List.length a) - List.length a) with 1 by lia. reflexivity. Qed.
Lemma tape_set g above row s : tape g above row -> tape (mkGrid (g_width g) (g_gone g) (set_row g s) (g_row g) (g_col g)) above s.
Proof.
  intros (up & k & Ea & Er & Ec). exists up, k. split; [exact Ea|]. split; [|exact Ec]. cbn [g_rows]. unfold set_row. rewrite Er, Ec, firstn_exact, skipn_past. reflexivity.
Qed.
Lemma tape_col g above row c : tape g above row -> tape (mkGrid (g_width g) (g_gone g) (g_rows g) (g_row g) c) above row.
Proof. intros (up & k & Ea & Er & Ec). exists up, k. auto. Qed.
Lemma tape_feed g above row : tape g above row -> tape (line_feed g) (above ++ [row]) [] /\ g_width (line_feed g) = g_width g /\ g_col (line_feed g) = g_col g.
Proof.
  intros (up & k & Ea & Er & Ec). unfold line_feed, g_height. rewrite Er, Ec, app_length. cbn [List.length]. rewrite repeat_length.
  destruct k as [|k].
  - destruct (Nat.ltb_spec (S (List.length up)) (List.length up + 1)); [lia|]. split; [|auto]. destruct up as [|t up].
    + exists [], 0. cbn in *. split; [rewrite <- Ea; rewrite !app_nil_r; reflexivity|]. auto.
    + exists (up ++ [row]), 0. cbn [g_gone g_rows g_row firstn skipn app] in *. split; [rewrite <- Ea, <- app_assoc; cbn [app]; rewrite app_comm_cons, app_assoc; reflexivity|].
      split; [rewrite <- !app_assoc; reflexivity|]. rewrite app_length. cbn. lia.
  - destruct (Nat.ltb_spec (S (List.length up)) (List.length up + S (S k))); [|lia]. split; [|auto].
    exists (up ++ [row]), k. cbn [g_gone g_rows g_row]. split; [rewrite <- Ea, app_assoc; reflexivity|]. split; [rewrite <- app_assoc; reflexivity|]. rewrite app_length. cbn. lia.
Qed.

(** ** Text that flows: the cursor is at the end of a row, folded so far *)
Definition flowing (w : nat) (g : grid) (above : list str) (text : str) : Prop :=
  exists front last, tape g (above ++ front) last /\ g_width g = w /\ g_col g = List.length last /\
    text = List.concat front ++ last /\ Forall (fun r => List.length r = w) front /\ List.length last <= w /\ (last = [] -> text = []).
Lemma flowing_folded w g above text : flowing w g above text -> exists rows last, tape g (above ++ rows) last /\ folded w text (rows ++ [last]) /\ g_width g = w /\ g_col g = List.length last.
Proof.
  intros (front & last & T & Ew & Ec & E & F & L & N). exists front, last. split; [exact T|]. split; [|auto].
  exists front, last. split; [reflexivity|]. rewrite concat_app. cbn [List.concat]. rewrite app_nil_r. auto.
Qed.
Lemma put_flows w g above text c : 1 <= w -> c <> c_newline -> flowing w g above text -> flowing w (put g c) above (text ++ [c]).
Proof.
  intros Hw Hc (front & last & T & Ew & Ec & E & F & L & N). unfold put. destruct (N.eqb_spec c c_newline); [contradiction|]. cbv zeta. rewrite Ew, Ec.
  destruct (Nat.ltb_spec (List.length last) w) as [Hl|Hl].
  - exists front, (last ++ [c]). cbn [g_width g_col]. split.
    { rewrite Ec, (tape_row _ _ _ T), write_end. exact (tape_col _ _ _ _ (tape_set _ _ _ _ T)). }
    split; [exact Ew|]. split; [rewrite Ec, app_length; cbn; lia|]. split; [rewrite E, app_assoc; reflexivity|]. split; [exact F|]. rewrite app_length. cbn. split; [lia|]. intros X. destruct last; discriminate X.
  - assert (Hl' : List.length last = w) by lia. destruct (tape_feed _ _ _ T) as (T' & Ew' & Ec'). pose proof (tape_col _ _ _ 0 T') as T2.
    exists (front ++ [last]), [c]. cbn [g_width g_col]. split.
    { rewrite (tape_row _ _ _ T2). change (write [] 0 [c]) with [c]. rewrite app_assoc. exact (tape_col _ _ _ _ (tape_set _ _ _ _ T2)). }
    split; [cbn; congruence|]. split; [reflexivity|]. split; [rewrite E, concat_app; cbn [List.concat]; rewrite app_nil_r; reflexivity|].
    split; [apply Forall_app; split; [exact F|constructor; [exact Hl'|constructor]]|]. cbn. split; [lia|]. discriminate.
Qed.
Lemma print_flows w above s : 1 <= w -> forall g text, ~ In c_newline s -> flowing w g above text -> flowing w (on_grid g (Print s)) above (text ++ s).
Proof.
  intros Hw. cbn [on_grid]. induction s as [|c s IH]; intros g text Hn F; cbn [fold_left]; [rewrite app_nil_r; exact F|].
  replace (text ++ c :: s) with ((text ++ [c]) ++ s) by (rewrite <- app_assoc; reflexivity). apply IH; [intros X; apply Hn; right; exact X|].
  apply put_flows; [exact Hw| |exact F]. intros ->. apply Hn. left. reflexivity.
Qed.

(** ** The inline screen on the grid *)
(** the finished rows folded, the current row on one row of the grid, the cursor in the same column *)
Section Before.
Variable before : list str.
Definition pictured (w : nat) (s : screen) (g : grid) : Prop :=
  exists above, folded_all w (sc_above s) above /\ tape g (before ++ above) (sc_row s) /\ g_width g = w /\ List.length (sc_row s) <= w /\ g_col g = sc_col s /\ sc_col s <= w.
(** the same while text is being written at the end of the row *)
Definition picturing (w : nat) (s : screen) (g : grid) : Prop :=
  exists above, folded_all w (sc_above s) above /\ flowing w g (before ++ above) (sc_row s) /\ sc_col s = List.length (sc_row s).
Lemma folded_all_app w t1 r1 t rows : folded_all w t1 r1 -> folded w t rows -> folded_all w (t1 ++ [t]) (r1 ++ rows).
Proof.
  intros (parts & F & ->) H. exists (parts ++ [rows]). split; [apply Forall2_app; [exact F|constructor; [exact H|constructor]]|]. rewrite concat_app. cbn [List.concat]. rewrite app_nil_r. reflexivity.
Qed.
Lemma picturing_done w s g : 1 <= w -> picturing w s g -> List.length (sc_row s) <= w -> pictured w s g.
Proof.
  intros Hw (above & A & (front & last & T & Ew & Ec & E & F & L & N) & C) Hl. exists above. split; [exact A|].
  assert (front = []) as ->.
  { destruct front as [|x front]; [reflexivity|]. exfalso. apply Forall_cons_iff in F as [Fx _]. rewrite E, app_length in Hl. cbn [List.concat] in Hl. rewrite app_length in Hl.
    destruct last as [|y last]; [|cbn in Hl; lia]. specialize (N eq_refl). rewrite E in N. cbn in N. destruct x; [cbn in Fx; lia|discriminate N]. }
  cbn [List.concat app] in E. rewrite E in *. rewrite app_nil_r in T. split; [exact T|]. split; [exact Ew|]. split; [exact L|]. rewrite C. split; [exact Ec|exact L].
Qed.
Lemma picture_clear w s g : 1 <= w -> pictured w s g -> picturing w (screen_after [MoveToColumn 0; ClearCurrentLine] s) (grid_after [MoveToColumn 0; ClearCurrentLine] g).
Proof.
  intros Hw (above & A & T & Ew & L & C & Cw). exists above. split; [exact A|]. split; [|reflexivity].
  cbn [screen_after grid_after fold_left on_screen on_grid sc_row sc_col sc_above g_width g_gone g_rows g_row g_col].
  exists [], []. rewrite app_nil_r. split; [exact (tape_set _ _ _ [] (tape_col _ _ _ 0 T))|]. split; [exact Ew|]. cbn. split; [reflexivity|]. split; [reflexivity|]. split; [constructor|]. split; [lia|]. auto.
Qed.
Lemma picture_tidy w cmds : 1 <= w -> tidy cmds -> forall s g, picturing w s g -> picturing w (screen_after cmds s) (grid_after cmds g).
Proof.
  intros Hw. induction 1 as [|t cmds Ht T IH|cmds T IH]; intros s g P; [exact P| |].
  - change (screen_after (Print t :: cmds) s) with (screen_after cmds (on_screen s (Print t))). change (grid_after (Print t :: cmds) g) with (grid_after cmds (on_grid g (Print t))).
    apply IH. destruct P as (above & A & F & C). exists above. cbn [on_screen]. rewrite (print_not_newline t Ht). cbn [sc_above sc_row sc_col]. split; [exact A|]. rewrite C, write_end.
    split; [apply print_flows; assumption|]. rewrite app_length. reflexivity.
  - change (screen_after (Print [c_newline] :: MoveToColumn 0 :: cmds) s) with (screen_after cmds (screen_after [Print [c_newline]; MoveToColumn 0] s)).
    change (grid_after (Print [c_newline] :: MoveToColumn 0 :: cmds) g) with (grid_after cmds (grid_after [Print [c_newline]; MoveToColumn 0] g)).
    apply IH. destruct P as (above & A & F & C). destruct (flowing_folded _ _ _ _ F) as (rows & last & Tp & Fo & Ew & Ec). exists (above ++ rows ++ [last]).
    change (screen_after [Print [c_newline]; MoveToColumn 0] s) with (mkScreen (sc_above s ++ [sc_row s]) [] 0). cbn [sc_above sc_row sc_col]. split; [apply folded_all_app; assumption|]. split; [|reflexivity].
    change (grid_after [Print [c_newline]; MoveToColumn 0] g) with (on_grid (line_feed g) (MoveToColumn 0)). cbn [on_grid]. destruct (tape_feed _ _ _ Tp) as (T' & Ew' & Ec').
    exists [], []. rewrite app_nil_r. cbn [g_width g_col]. split; [rewrite !app_assoc in *; apply tape_col; exact T'|]. split; [congruence|]. cbn. split; [reflexivity|]. split; [reflexivity|]. split; [constructor|]. split; [lia|]. auto.
Qed.
(** What the program writes in inline mode. *)
Inductive neat (w : nat) : list tcmd -> Prop :=
| nt_nil : neat w []
| nt_move : forall k cmds, k < w -> neat w cmds -> neat w (MoveToColumn k :: cmds)
| nt_feed : forall cmds, neat w cmds -> neat w (Print [c_newline] :: cmds)
| nt_text : forall text rows row cmds, tidy text -> fold_left print_to text [[]] = rows ++ [row] -> List.length row <= w -> neat w cmds ->
    neat w ([MoveToColumn 0; ClearCurrentLine] ++ text ++ cmds).
Lemma neat_app w a b : neat w a -> neat w b -> neat w (a ++ b).
Proof.
  induction 1 as [|k a Hk Ha IH|a Ha IH|text rows row a T E L Ha IH]; intros Hb; cbn [app]; [exact Hb|constructor; auto|constructor; auto|].
  rewrite <- app_assoc. exact (nt_text w text rows row _ T E L (IH Hb)).
Qed.
Lemma grid_app a b g : grid_after (a ++ b) g = grid_after b (grid_after a g).
Proof. apply fold_left_app. Qed.
Lemma folded_short w t : List.length t <= w -> folded w t [t].
Proof. intros L. exists [], t. cbn. rewrite app_nil_r. auto. Qed.
Lemma neat_picture w cmds : 1 <= w -> neat w cmds -> forall s g, pictured w s g -> pictured w (screen_after cmds s) (grid_after cmds g).
Proof.
  intros Hw. induction 1 as [|k cmds Hk H IH|cmds H IH|text rows row cmds T E L H IH]; intros s g P; [exact P| | |].
  - change (screen_after (MoveToColumn k :: cmds) s) with (screen_after cmds (on_screen s (MoveToColumn k))). change (grid_after (MoveToColumn k :: cmds) g) with (grid_after cmds (on_grid g (MoveToColumn k))).
    apply IH. destruct P as (above & A & T & Ew & L & C & Cw). exists above. cbn [on_screen on_grid sc_above sc_row sc_col g_width g_col]. split; [exact A|]. split; [apply tape_col; exact T|]. split; [exact Ew|]. split; [exact L|]. rewrite Ew. split; lia.
  - change (screen_after (Print [c_newline] :: cmds) s) with (screen_after cmds (mkScreen (sc_above s ++ [sc_row s]) [] (sc_col s))). change (grid_after (Print [c_newline] :: cmds) g) with (grid_after cmds (line_feed g)).
    apply IH. destruct P as (above & A & T & Ew & L & C & Cw). destruct (tape_feed _ _ _ T) as (T' & Ew' & Ec'). exists (above ++ [sc_row s]). cbn [sc_above sc_row sc_col].
    split; [apply folded_all_app; [exact A|apply folded_short; exact L]|]. split; [rewrite app_assoc; exact T'|]. split; [congruence|]. split; [cbn; lia|]. split; [congruence|exact Cw].
  - rewrite !screen_app, !grid_app. apply IH. apply picturing_done; [exact Hw| |].
    + apply picture_tidy; [exact Hw|exact T|]. apply picture_clear; assumption.
    + pose proof (tidy_rows text (sc_above s) [] rows row T E : screen_after text (screen_after [MoveToColumn 0; ClearCurrentLine] s) = _) as X. rewrite X. exact L.
Qed.
Lemma blank_pictured w g : tape g before [] -> g_width g = w -> g_col g = 0 -> pictured w blank g.
Proof.
  intros T Ew Ec. exists []. cbn [blank sc_above sc_row sc_col]. split; [exists []; split; [constructor|reflexivity]|]. rewrite app_nil_r. split; [exact T|]. split; [exact Ew|]. cbn. repeat split; lia.
Qed.
End Before.
