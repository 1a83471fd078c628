(** ProofsTerminal4.v -- the alternate screen on a terminal with a size. *)
From Verif Require Import Base Position Num TokenTypes Errors Token SavedData Variables InputHistory
  SyntaxTree Commands Calculate Editor Sessions SpecEval SpecHistory SpecEditor SpecCalc SpecSession SpecMain SpecTerminal.
From Verif Require Import ProofsEval ProofsDb2 ProofsEditor ProofsEditor2 ProofsEditor3 ProofsEditor4 ProofsCalc4 ProofsCalc6 ProofsCalc7 ProofsCalc8 ProofsCommands2 ProofsSession ProofsTerminal ProofsTerminal2 ProofsTerminal3.
From Coq Require Import String Lia.
Local Open Scope nat_scope.
Local Open Scope list_scope.

Lemma tape_fits g above row : tape g above row -> tight g -> S (List.length above) < g_height g -> g_gone g = [].
Proof.
  intros (up & k & Ea & Er & Ec) (On & [G|G]) H; [exact G|]. exfalso. rewrite <- Ea, app_length in H. lia.
Qed.
Lemma tape_room g above row : tape g above row -> g_gone g = [] -> g_height g >= S (List.length above).
Proof. intros (up & k & Ea & Er & Ec) G. rewrite G in Ea. cbn in Ea. subst up. unfold g_height. rewrite Er, app_length. cbn. lia. Qed.
Lemma tape_next g above row : tape g above row -> tight g -> S (List.length above) < g_height g ->
  let g' := on_grid g (MoveToNextLine 1) in tape g' (above ++ [row]) [] /\ tight g' /\ g_col g' = 0 /\ g_width g' = g_width g /\ g_height g' = g_height g.
Proof.
  intros T Ti H g'. pose proof (tape_fits _ _ _ T Ti H) as G. destruct Ti as (On & _). destruct (on_grid_size g (MoveToNextLine 1) On) as (On' & Eh & Ew).
  destruct T as (up & k & Ea & Er & Ec). rewrite G in Ea. cbn in Ea. subst up.
  split; [|split; [split; [exact On'|left; exact G]|split; [reflexivity|split; assumption]]].
  exists (above ++ [row]), (k - 1). assert (Hk : 1 <= k) by (unfold g_height in H; rewrite Er, app_length in H; cbn in H; rewrite repeat_length in H; lia).
  cbn [g' on_grid g_gone g_rows g_row]. rewrite G. split; [reflexivity|]. split.
  - rewrite Er, <- app_assoc. cbn [app]. destruct k; [lia|]. cbn [repeat]. replace (S k - 1) with k by lia. reflexivity.
  - rewrite Ec, app_length. cbn. lia.
Qed.
(** Commands that write text and go to the next row. *)
Inductive smooth : list tcmd -> Prop :=
| sm_nil : smooth []
| sm_print : forall s cmds, ~ In c_newline s -> smooth cmds -> smooth (Print s :: cmds)
| sm_next : forall cmds, smooth cmds -> smooth (MoveToNextLine 1 :: cmds).
Lemma smooth_app a b : smooth a -> smooth b -> smooth (a ++ b).
Proof. induction 1; intros Hb; cbn [app]; [exact Hb|constructor; auto|constructor; auto]. Qed.
Lemma print_tight s : forall g, tight g -> tight (on_grid g (Print s)).
Proof. cbn [on_grid]. induction s as [|x s IH]; intros g T; cbn [fold_left]; [exact T|]. apply IH, put_tight, T. Qed.
Lemma folded_nonempty w s r : folded w s r -> r <> [].
Proof. intros (f & l & -> & _). destruct f; discriminate. Qed.
Lemma printed_some cmds : forall rows, rows <> [] -> fold_left print_to cmds rows <> [].
Proof. induction cmds as [|c cmds IH]; intros rows H; [exact H|]. cbn [fold_left]. apply IH. destruct (print_to_prefix [] rows c H) as [_ K]. exact K. Qed.
Lemma smooth_flow w cmds : 1 <= w -> smooth cmds -> forall g above text rows last phys, flowing w g above text -> tight g ->
  fold_left print_to cmds [text] = rows ++ [last] -> folded_all w rows phys -> List.length above + List.length phys < g_height g ->
  flowing w (grid_after cmds g) (above ++ phys) last /\ tight (grid_after cmds g) /\ g_height (grid_after cmds g) = g_height g.
Proof.
  intros Hw. induction 1 as [|s cmds Hs H IH|cmds H IH]; intros g above text rows last phys F Ti E A Fit.
  - cbn in E. destruct rows as [|r [|? ?]]; try discriminate E. cbn in E. injection E as <-. destruct A as (p & A & ->). inversion A; subst. cbn. rewrite app_nil_r. auto.
  - change (grid_after (Print s :: cmds) g) with (grid_after cmds (on_grid g (Print s))). cbn [fold_left print_to] in E. rewrite (print_not_newline s Hs) in E. cbn [add_text] in E.
    destruct (on_grid_size g (Print s) (proj1 Ti)) as (_ & Eh & _). destruct (IH (on_grid g (Print s)) above (text ++ s) rows last phys) as (X & Y & Z).
    + apply print_flows; assumption.
    + apply print_tight. exact Ti.
    + exact E.
    + exact A.
    + rewrite Eh. exact Fit.
    + split; [exact X|]. split; [exact Y|]. congruence.
  - change (grid_after (MoveToNextLine 1 :: cmds) g) with (grid_after cmds (on_grid g (MoveToNextLine 1))).
    cbn [fold_left print_to] in E. change [text; []] with ([text] ++ [[]]) in E. change (fold_left print_to cmds ([text] ++ [[]]) = rows ++ [last]) in E.
    rewrite printed_prefix in E by discriminate.
    destruct rows as [|r rows]; cbn [app] in E; [exfalso; injection E as _ E; exact (printed_some cmds [[]] ltac:(discriminate) E)|]. injection E as <- E.
    destruct A as (parts & A & ->). inversion A as [|? pt ? parts' A1 A2]; subst. cbn [List.concat] in *.
    destruct (flowing_folded _ _ _ _ F) as (front & lst & T & Fo & Ew & Ec).
    assert (pt = front ++ [lst]) as -> by (eapply (folded_unique w Hw (List.length text)); eauto). rewrite !app_length in Fit. cbn [List.length] in Fit.
    destruct (tape_next _ _ _ T Ti) as (T' & Ti' & C' & W' & Eh); [rewrite app_length; lia|].
    destruct (IH (on_grid g (MoveToNextLine 1)) (above ++ front ++ [lst]) [] rows last (List.concat parts')) as (X & Y & Z).
    + exists [], []. rewrite app_nil_r. split; [rewrite app_assoc; exact T'|]. split; [congruence|]. cbn. split; [exact C'|]. split; [reflexivity|]. split; [constructor|]. split; [lia|]. auto.
    + exact Ti'.
    + exact E.
    + exists parts'. auto.
    + rewrite Eh, !app_length. cbn. lia.
    + split; [|split; [exact Y|congruence]]. rewrite !app_assoc in *. exact X.
Qed.

(** The rows from the top are known; the rest will be rewritten. *)
Definition topped (g : grid) (above : list str) : Prop := onscreen g /\ g_gone g = [] /\ firstn (List.length above) (g_rows g) = above /\ List.length above < g_height g.
Lemma clear_top w g above : g_width g = w -> topped g above -> let g' := grid_after [MoveTo 0 (List.length above); ClearFromCursorDown] g in
  flowing w g' above [] /\ tight g' /\ g_height g' = g_height g.
Proof.
  intros Ew (On & G & Tp & Fit) g'. destruct (grid_size [MoveTo 0 (List.length above); ClearFromCursorDown] g On) as (On' & Eh & Ew').
  assert (T : tape g' above []).
  { exists above, (g_height g - S (List.length above)). unfold g'. cbn [grid_after fold_left on_grid g_gone g_rows g_row g_col]. rewrite G. split; [reflexivity|].
    assert (Nat.min (List.length above) (g_height g - 1) = List.length above) as Em by lia. unfold g_height in *. cbn [g_rows]. rewrite Em, Tp. cbn [Nat.min firstn]. split; reflexivity. }
  split; [|split; [split; [exact On'|left; exact G]|exact Eh]].
  exists [], []. rewrite app_nil_r. split; [exact T|]. split; [etransitivity; [exact Ew'|exact Ew]|]. cbn. split; [reflexivity|]. split; [reflexivity|]. split; [constructor|]. split; [lia|]. auto.
Qed.
Lemma folded_all_short w rows : Forall (fun r => List.length r <= w) rows -> folded_all w rows rows.
Proof.
  intros H. exists (map (fun r => [r]) rows). split.
  - induction H as [|r rows Hr H IH]; cbn; constructor; [apply folded_short; exact Hr|exact IH].
  - clear. induction rows as [|r rows IH]; [reflexivity|]. cbn. rewrite <- IH. reflexivity.
Qed.
Lemma folded_all_two w a b ra rb : folded_all w a ra -> folded_all w b rb -> folded_all w (a ++ b) (ra ++ rb).
Proof. intros (p & F & ->) (q & G & ->). exists (p ++ q). split; [apply Forall2_app; assumption|]. rewrite concat_app. reflexivity. Qed.

(** ** What the alternate screen's display writes *)
Lemma wrap_rest_smooth line av : ~ In c_newline line -> forall fuel i cmds,
  wrap_rest fuel [MoveToNextLine 1] (lit "  ") line av i = Ok cmds -> smooth cmds.
Proof.
  intros Hn. induction fuel as [|fuel IH]; intros i cmds E; cbn [wrap_rest] in E; [discriminate E|].
  destruct (Nat.ltb i (List.length line)); [|apply ok_inj in E as <-; constructor]. cbv zeta in E.
  destruct (slice line i _) as [part|e|p] eqn:S; cbn [bind] in E; try discriminate E.
  destruct (wrap_rest fuel _ _ line av _) as [more|e|p] eqn:W; cbn [bind] in E; try discriminate E. apply ok_inj in E as <-.
  cbn [app]. apply sm_next. apply sm_print; [intros [C|[C|[]]]; discriminate C|]. apply sm_print; [|eapply IH; exact W].
  unfold slice in S. destruct (_ && _); [|discriminate S]. apply ok_inj in S as <-. intros C. apply Hn. apply in_firstn' in C. apply in_skipn' in C. exact C.
Qed.
Lemma wrapped_smooth pr complete cols cursor start line : 3 <= cols -> fits_u16 cols -> fits_u16 (cursor / (cols - 2) + snd start) -> ~ In c_newline line ->
  exists text e, display_wrapped pr true complete cols cursor start line =
    Ok ([MoveTo (fst start) (snd start); ClearFromCursorDown] ++ text ++ (if complete then [MoveToNextLine 1] else [MoveTo (2 + cursor mod (cols - 2)) (cursor / (cols - 2) + snd start)])) /\
    smooth text /\ printed_rows text = e /\ echo cols line e /\ Forall (fun r => List.length r <= cols) e.
Proof.
  intros H3 Hu Hr Hn. destruct (wrapped_ok pr true complete cols cursor start line H3 Hu Hr Hn) as (body & E & prefix & text & -> & -> & c1 & cs & P & C & Len & _ & Fo).
  exists text, ((lit "# " ++ c1) :: map (app (lit "  ")) cs). split; [rewrite <- app_assoc in E; exact E|]. split; [|split; [|split]].
  - rewrite <- app_assoc in E. unfold display_wrapped in E. cbv zeta in E. change (repeat c_space (List.length PROMPT_STR)) with (lit "  ") in E.
    destruct (Nat.ltb _ _); [discriminate E|]. destruct (Nat.eqb _ 0); [discriminate E|].
    destruct (u16_try_from (Nat.div _ _)) as [q|e|p]; cbn [bind] in E; try discriminate E.
    destruct (u16_add pr q _) as [q1|e|p]; cbn [bind] in E; try discriminate E.
    destruct (u16_try_from (_ + _)) as [q2|e|p]; cbn [bind] in E; try discriminate E.
    destruct (slice line 0 _) as [s|e|p] eqn:S; cbn [bind] in E; try discriminate E.
    destruct (wrap_rest _ _ _ _ _ _) as [ws|e|p] eqn:W; cbn [bind] in E; try discriminate E. apply ok_inj in E.
    apply (f_equal (skipn 2)) in E. cbn [skipn app] in E.
    assert (text = Print PROMPT_STR :: Print s :: ws) as ->.
    { destruct complete; cbn [newline_of] in E; rewrite !app_comm_cons in E; apply app_inj_tail in E as [E _]; symmetry; exact E. }
    apply sm_print; [intros [X|[X|[]]]; discriminate X|]. apply sm_print; [|eapply wrap_rest_smooth; eauto].
    unfold slice in S. destruct (_ && _); [|discriminate S]. apply ok_inj in S as <-. intros X. apply Hn. apply in_firstn' in X. apply in_skipn' in X. exact X.
  - exact P.
  - exists c1, cs. split; [reflexivity|exact Fo].
  - constructor; [rewrite app_length; specialize (Len c1 (or_introl eq_refl)); change (List.length (lit "# ")) with 2; lia|].
    apply Forall_forall. intros r X. apply in_map_iff in X as (c & <- & X). rewrite app_length. specialize (Len c (or_intror X)). change (List.length (lit "  ")) with 2. lia.
Qed.
