(** ProofsTerminal5.v -- redrawing and finishing a line on the alternate screen. *)
From Verif Require Import Base Position Num TokenTypes Errors Token SavedData Variables InputHistory
  SyntaxTree Commands Calculate Editor Sessions SpecEval SpecHistory SpecEditor SpecCalc SpecSession SpecMain SpecTerminal.
From Verif Require Import ProofsEval ProofsDb2 ProofsEditor ProofsEditor2 ProofsEditor3 ProofsEditor4 ProofsCalc4 ProofsCalc6 ProofsCalc7 ProofsCalc8 ProofsCommands2 ProofsSession ProofsKept ProofsTerminal ProofsTerminal2 ProofsTerminal3 ProofsTerminal4.
From Coq Require Import String Lia.
Local Open Scope nat_scope.
Local Open Scope list_scope.

Lemma flow_single w g above text : 1 <= w -> flowing w g above text -> List.length text <= w -> tape g above text /\ g_width g = w /\ g_col g = List.length text.
Proof.
  intros Hw (front & last & T & Ew & Ec & E & F & L & N) Hl.
  assert (front = []) as ->.
  { destruct front as [|x front]; [reflexivity|]. exfalso. apply Forall_cons_iff in F as [Fx _]. rewrite E, app_length in Hl. cbn [List.concat] in Hl. rewrite app_length in Hl.
    destruct last as [|y last]; [|cbn in Hl; lia]. specialize (N eq_refl). rewrite E in N. cbn in N. destruct x; [cbn in Fx; lia|discriminate N]. }
  cbn [List.concat app] in E. subst last. rewrite app_nil_r in T. auto.
Qed.
Lemma tape_gone g above row : tape g above row -> tight g -> List.length above < g_height g ->
  g_gone g = [] /\ g_row g = List.length above /\ exists k, g_rows g = above ++ row :: repeat [] k.
Proof.
  intros (up & k & Ea & Er & Ec) (On & G) H.
  assert (X : g_gone g = []).
  { destruct G as [G|G]; [exact G|]. rewrite <- Ea, app_length in H. destruct (g_gone g); [reflexivity|]. cbn in H. lia. }
  rewrite X in Ea. cbn in Ea. subst up. split; [exact X|]. split; [exact Ec|]. exists k. exact Er.
Qed.
Lemma echo_unique w line e e' : 3 <= w -> echo w line e -> echo w line e' -> e = e'.
Proof.
  intros Hw (f & r & -> & F) (f' & r' & -> & F').
  pose proof (folded_unique (w - 2) ltac:(lia) (List.length line) _ _ _ (le_n _) F F') as E. injection E as <- <-. reflexivity.
Qed.
Lemma folded_bounds w s rows : folded w s rows -> List.length s <= w * List.length rows /\ w * (List.length rows - 1) <= List.length s /\ (s <> [] -> w * (List.length rows - 1) < List.length s) /\ 1 <= List.length rows.
Proof.
  intros (front & last & -> & <- & F & L & N). rewrite concat_app, !app_length. cbn [List.concat List.length]. rewrite app_nil_r.
  assert (List.length (List.concat front) = w * List.length front) as ->.
  { clear -F. induction F as [|x front E F IH]; cbn [List.concat List.length]; [lia|]. rewrite app_length, IH. lia. }
  split; [nia|]. split; [nia|]. split; [|lia]. intros X. rewrite concat_app in N. cbn [List.concat] in N. rewrite app_nil_r in N.
  assert (last <> []). { intros ->. apply X. exact (N eq_refl). }
  assert (List.length last <> 0) by (destruct last; [congruence|cbn; lia]). replace (List.length front + 1 - 1) with (List.length front) by lia. lia.
Qed.
Lemma echo_length w line e : echo w line e -> exists rows, folded (w - 2) line rows /\ List.length e = List.length rows.
Proof. intros (f & r & -> & F). exists (f :: r). split; [exact F|]. cbn. rewrite map_length. reflexivity. Qed.
(** A longer line has at least as many rows. *)
Lemma echo_grows w a b ea eb : 3 <= w -> List.length a <= List.length b -> echo w a ea -> echo w b eb -> List.length ea <= List.length eb.
Proof.
  intros Hw H Ea Eb. apply echo_length in Ea as (ra & Fa & ->). apply echo_length in Eb as (rb & Fb & ->).
  destruct (folded_bounds _ _ _ Fa) as (A1 & A2 & A3 & A4). destruct (folded_bounds _ _ _ Fb) as (B1 & B2 & B3 & B4).
  destruct a as [|c a].
  - destruct Fa as (front & last & -> & E & F & L & _). destruct front as [|x front]; [cbn; lia|]. apply Forall_cons_iff in F as [Fx _]. destruct x; [cbn in Fx; lia|discriminate E].
  - specialize (A3 ltac:(discriminate)). nia.
Qed.
Lemma echo_exists w line : 3 <= w -> exists e, echo w line e.
Proof. intros Hw. destruct (folded_exists (w - 2) line ltac:(lia)) as ([|f r] & F); [destruct (folded_nonempty _ _ _ F eq_refl)|]. eexists. exists f, r. split; [reflexivity|exact F]. Qed.
Lemma echo_cursor w line e c : 3 <= w -> echo w line e -> c <= List.length line -> c / (w - 2) <= List.length e.
Proof.
  intros Hw E Hc. apply echo_length in E as (r & F & ->). destruct (folded_bounds _ _ _ F) as (A & _). apply Nat.div_le_upper_bound; lia.
Qed.
Lemma topped_edits g above line cursor : edits_at g above line cursor -> onscreen g -> topped g above.
Proof.
  intros (e & k & E & G & R & C) On. split; [exact On|]. split; [exact G|]. rewrite R, firstn_exact. split; [reflexivity|].
  unfold g_height. rewrite R, !app_length. destruct E as (f & r & -> & _). cbn. lia.
Qed.

(** ** Redrawing *)
Lemma redraw_alternate pr w (l : line_state) h t g above e : current_line (E := runtime_error) h = Ok t -> l_cols l = w -> l_start l = (0, List.length above) ->
  3 <= w -> fits_u16 w -> fits_u16 (g_height g) -> l_cursor l <= List.length t -> ~ In c_newline t -> g_width g = w -> topped g above ->
  echo w t e -> List.length above + List.length e <= g_height g ->
  exists out, display pr true false l h = Ok (l, out) /\ edits_at (grid_after out g) above t (l_cursor l) /\
    onscreen (grid_after out g) /\ g_width (grid_after out g) = w /\ g_height (grid_after out g) = g_height g.
Proof.
  intros Et Ec Es H3 Hu Hh Hc Hn Gw Tp Ee Fit. unfold display. rewrite Et. cbn [bind orb]. rewrite Ec, Es.
  assert (Hcur := echo_cursor w t e (l_cursor l) H3 Ee Hc).
  destruct (wrapped_smooth pr false w (l_cursor l) (0, List.length above) t H3 Hu) as (text & e0 & D & Sm & P & Ee0 & Sh).
  { cbn [snd]. unfold fits_u16 in *. lia. }
  { exact Hn. }
  rewrite D. cbn [bind fst snd]. eexists. split; [reflexivity|].
  assert (e0 = e) as -> by (eapply echo_unique; eauto).
  set (g1 := grid_after [MoveTo 0 (List.length above); ClearFromCursorDown] g).
  destruct (clear_top w g above Gw Tp) as (F1 & T1 & H1). fold g1 in F1, T1, H1.
  assert (Ne : e <> []) by (destruct Ee as (? & ? & -> & _); discriminate). destruct (exists_last Ne) as (front & last & ->).
  apply Forall_app in Sh as [Shf Shl]. apply Forall_cons_iff in Shl as [Shl _].
  rewrite app_length in Fit. cbn [List.length] in Fit.
  destruct (smooth_flow w text ltac:(lia) Sm g1 above [] front last front F1 T1 P (folded_all_short w front Shf) ltac:(lia)) as (F2 & T2 & H2).
  destruct (flow_single w _ _ _ ltac:(lia) F2 Shl) as (Ta & Gw2 & Gc2).
  set (g2 := grid_after text g1) in *.
  destruct (tape_gone _ _ _ Ta T2) as (Gg & Gr & k & Er); [rewrite app_length; lia|].
  match goal with |- context [grid_after ?o g] => assert (EqG : grid_after o g = on_grid g2 (MoveTo (2 + l_cursor l mod (w - 2)) (l_cursor l / (w - 2) + List.length above))) end.
  { rewrite !grid_app. reflexivity. }
  rewrite EqG. set (gc := on_grid g2 _). assert (Hm : l_cursor l mod (w - 2) < w - 2) by (apply Nat.mod_upper_bound; lia).
  assert (Eh : g_height gc = g_height g) by (unfold gc, g_height; cbn [on_grid g_rows]; fold (g_height g2); fold (g_height g); congruence).
  assert (Ew : g_width gc = w) by exact Gw2.
  split; [|split; [|split; [exact Ew|exact Eh]]].
  - exists (front ++ [last]), k. split; [rewrite Ew; exact Ee|]. split; [exact Gg|].
    split; [unfold gc; cbn [on_grid g_rows]; rewrite Er, <- !app_assoc; reflexivity|].
    unfold cursor_of. rewrite Eh, Ew. unfold gc. cbn [on_grid g_col g_row g_width]. rewrite Gw2. f_equal; [lia|]. rewrite Nat.add_comm. fold (g_height g2). f_equal. lia.
  - unfold gc, onscreen. cbn [on_grid g_row]. unfold g_height. cbn [g_rows]. fold (g_height g2). rewrite H2, H1. destruct Tp as (_ & _ & _ & X). lia.
Qed.

(** ** Finishing a line *)
Lemma print_output_smooth text : smooth (print_output true text).
Proof.
  unfold print_output. destruct (split_lines_spec text [] (fun x => x)) as (_ & B & _). induction (split_lines text []) as [|r rows IH]; [constructor|].
  apply Forall_cons_iff in B as [Hr B]. cbn [flat_map app]. apply sm_print; [exact Hr|]. apply sm_next. apply IH. exact B.
Qed.
Lemma print_output_rows text rows : rows_of text rows -> fold_left print_to (print_output true text) [[]] = rows ++ [[]].
Proof.
  intros (N & Nn & J). destruct (split_lines_spec text [] (fun x => x)) as (A & B & C). cbn [rev app] in C.
  assert (split_lines text [] = rows) as E by (apply rows_unique; auto; congruence). unfold print_output. rewrite E. clear -Nn.
  induction Nn as [|r rows Hr Nn IH]; [reflexivity|]. cbn [flat_map app fold_left print_to]. rewrite (print_not_newline r Hr). cbn [add_text app].
  change [r; []] with ([r] ++ [[]]). rewrite printed_prefix by discriminate. rewrite IH. reflexivity.
Qed.
Lemma finish_grid pr w (l : line_state) t g above e text rows physr : l_cols l = w -> l_start l = (0, List.length above) ->
  3 <= w -> fits_u16 w -> fits_u16 (g_height g) -> l_cursor l <= List.length t -> ~ In c_newline t -> g_width g = w -> topped g above ->
  echo w t e -> rows_of text rows -> folded_all w rows physr -> List.length above + List.length e + List.length physr < g_height g ->
  exists out1, display_wrapped pr true true (l_cols l) (l_cursor l) (l_start l) t = Ok out1 /\
    let g' := grid_after (out1 ++ print_output true text) g in
    topped g' (above ++ e ++ physr) /\ cursor_of g' = (0, List.length (above ++ e ++ physr)) /\ g_width g' = w /\ g_height g' = g_height g.
Proof.
  intros Ec Es H3 Hu Hh Hc Hn Gw Tp Ee Rw Fo Fit. rewrite Ec, Es. assert (Hcur := echo_cursor w t e (l_cursor l) H3 Ee Hc).
  destruct (wrapped_smooth pr true w (l_cursor l) (0, List.length above) t H3 Hu) as (txt & e0 & D & Sm & P & Ee0 & Sh).
  { cbn [snd]. unfold fits_u16 in *. lia. }
  { exact Hn. }
  assert (e0 = e) as -> by (eapply echo_unique; eauto). eexists. split; [exact D|]. cbv zeta. cbn [fst snd].
  set (g1 := grid_after [MoveTo 0 (List.length above); ClearFromCursorDown] g).
  destruct (clear_top w g above Gw Tp) as (F1 & T1 & H1). fold g1 in F1, T1, H1.
  assert (Sm2 : smooth (txt ++ [MoveToNextLine 1] ++ print_output true text)) by (apply smooth_app; [exact Sm|]; apply sm_next, print_output_smooth).
  destruct (smooth_flow w _ ltac:(lia) Sm2 g1 above [] (e ++ rows) [] (e ++ physr) F1 T1) as (F2 & T2 & H2).
  { rewrite fold_left_app. etransitivity; [exact (f_equal (fold_left print_to ([MoveToNextLine 1] ++ print_output true text)) P)|]. cbn [app fold_left print_to]. rewrite printed_prefix by discriminate. rewrite (print_output_rows _ _ Rw), app_assoc. reflexivity. }
  { apply folded_all_two; [apply folded_all_short; exact Sh|exact Fo]. }
  { rewrite app_length. lia. }
  destruct (flow_single w _ _ _ ltac:(lia) F2 ltac:(cbn; lia)) as (Ta & Gw2 & Gc2).
  assert (EqG : grid_after (([MoveTo 0 (List.length above); ClearFromCursorDown] ++ txt ++ [MoveToNextLine 1]) ++ print_output true text) g = grid_after (txt ++ [MoveToNextLine 1] ++ print_output true text) g1).
  { rewrite <- !app_assoc. rewrite grid_app. reflexivity. }
  rewrite EqG. set (g2 := grid_after _ g1) in *.
  destruct (tape_gone _ _ _ Ta T2) as (Gg & Gr & k & Er); [rewrite !app_length; lia|].
  split; [|split; [|split; [exact Gw2|congruence]]].
  - split; [exact (proj1 T2)|]. split; [exact Gg|]. split; [rewrite Er; apply firstn_exact|]. rewrite !app_length. lia.
  - unfold cursor_of. rewrite Gc2, Gr. reflexivity.
Qed.
