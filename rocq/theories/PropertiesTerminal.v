(** PropertiesTerminal.v -- sessions on a terminal with a size: C78-C79. *)
From Verif Require Import Base Position Num TokenTypes Errors Token SavedData Variables InputHistory
  SyntaxTree Commands Calculate Editor Sessions SpecEval SpecHistory SpecEditor SpecCalc SpecSession SpecMain SpecTerminal.
From Verif Require Import ProofsCalc4 ProofsSession ProofsTerminal ProofsTerminal2 ProofsTerminal3 ProofsTerminal7 ProofsTerminal8 ProofsTerminal9 PropertiesEditor PropertiesCalc.
From Coq Require Import String Lia.
Local Open Scope nat_scope.
Local Open Scope list_scope.

(** ** C78 *)
(** In inline mode, on a terminal of any size (at least six columns), wherever on it the session starts: what is on
    the terminal is what was there before, followed by the rows of the session, long ones folded, followed by the row
    being edited and nothing else.  No row is lost: they scroll off the top, and only when there is no more room. *)
Theorem C78_any_inline_session : forall pr ord tm w g before a db evs u out st, (forall n, iterates (ord n)) ->
  valid_settings a -> a_alternate_screen a = false ->
  (forall sd, db = Some sd -> program_file (sd_db sd) /\ forall t, In t (texts_of (sd_db sd)) -> ~ In c_newline t) ->
  6 <= w -> fits_u16 w -> (forall n, snd (tm n) = w) -> g_width g = w -> displays g before [] 0 -> undisturbed evs ->
  interactive pr ord the_executor tm a db evs = (u, out, st) ->
  let s := screen_after out blank in
  exists rows, folded_all w (sc_above s) rows /\
    displays (grid_after out g) (before ++ rows) (sc_row s) (Nat.min (sc_col s) (w - 1)).
Proof. exact session_on_terminal. Qed.
Print Assumptions C78_any_inline_session.
(** For a dialogue of typed lines, these rows are its transcript: each line after its prompt, below it its reply. *)
Theorem C78_transcript : forall pr ord tm w g before a db lines se' replies, (forall n, iterates (ord n)) ->
  valid_settings a -> a_alternate_screen a = false ->
  (forall sd, db = Some sd -> program_file (sd_db sd) /\ forall t, In t (texts_of (sd_db sd)) -> ~ In c_newline t) ->
  Forall typable lines -> 6 <= w -> fits_u16 w -> (forall n, snd (tm n) = w) -> g_width g = w -> displays g before [] 0 ->
  roomy tm 0 -> (forall line, In line lines -> roomy tm (List.length line)) ->
  dialogue pr ord the_executor 0 (new_session a db) lines se' replies ->
  exists u out rows phys, interactive pr ord the_executor tm a db (typing_lines lines) = (u, out, Waiting) /\
    transcript tm 0 replies rows /\ folded_all w rows phys /\ displays (grid_after out g) (before ++ phys) (lit "# ") 2.
Proof. exact dialogue_on_terminal. Qed.
Print Assumptions C78_transcript.
(** How a text is folded is determined, and so is what a terminal shows. *)
Theorem C78_folding_determined : forall w texts rows rows', 1 <= w -> folded_all w texts rows -> folded_all w texts rows' -> rows = rows'.
Proof. exact folded_all_unique. Qed.
Print Assumptions C78_folding_determined.
Theorem C78_folding_exists : forall w texts, 1 <= w -> exists rows, folded_all w texts rows.
Proof. exact folded_all_exists. Qed.
Print Assumptions C78_folding_exists.
(** The commands never change the size of the terminal, and the cursor stays on it. *)
Theorem C78_terminal_keeps_its_size : forall cmds g, g_row g < g_height g ->
  g_row (grid_after cmds g) < g_height (grid_after cmds g) /\ g_height (grid_after cmds g) = g_height g /\ g_width (grid_after cmds g) = g_width g.
Proof. exact grid_size. Qed.
Print Assumptions C78_terminal_keeps_its_size.
(** Ten columns and five rows, of which the shell has used two: the first rows have scrolled off. *)
Definition shell : grid := mkGrid 10 [] [lit "$ ls"; lit "bcalc"; []; []; []] 2 0.
Example C78_example :
  displays shell [lit "$ ls"; lit "bcalc"] [] 0 /\
  grid_after (snd (fst (interactive Debug (fun _ => order) the_executor (fun _ => ((0, 0), 10)) a0 (Some disk0)
    (typing_lines [lit "12345678+1"; lit "2 +"])))) shell =
  mkGrid 10 [lit "$ ls"; lit "bcalc"; lit "# 12345678"; lit "  +1"; lit "12345679"; lit "# 2 +"; lit "Error: Add"; lit "ition Oper"]
            [lit "ator (+) i"; lit "s missing "; lit "a required"; lit " operand"; lit "# "] 4 2.
Proof.
  split; [|vm_compute; reflexivity]. split; [reflexivity|]. split; [reflexivity|]. split; [repeat constructor|]. split; [reflexivity|]. split; [cbn; lia|]. left. reflexivity.
Qed.

(** ** C79 *)
(** On the alternate screen, whatever the events: as long as what was said and the line being edited fit on the screen,
    the screen shows, below what was there when the program began, the lines and the replies, long rows folded, then the
    line being edited, and nothing else; the cursor is in its cell.  Missing: what happens when there is no more room,
    where the property fails ([C79_refuted]). *)
Theorem C79_any_session_partial : forall pr ord w h g top a db evs u g', (forall n, iterates (ord n)) -> valid_settings a -> a_alternate_screen a = true ->
  (forall sd, db = Some sd -> program_file (sd_db sd) /\ forall t, In t (texts_of (sd_db sd)) -> ~ In c_newline t) ->
  3 <= w -> fits_u16 w -> fits_u16 h -> g_width g = w -> g_height g = h -> ready g top -> undisturbed evs ->
  enough_room pr ord the_executor a db evs g top -> live pr ord the_executor a db evs g = (u, g', Waiting) ->
  exists replies rows phys line, told_session pr ord the_executor a db evs g replies u g' /\
    transcript (wide w) 0 replies rows /\ folded_all w rows phys /\
    shown (u_inputs u) = Ok line /\ edits_at g' (top ++ phys) line (l_cursor (u_line u)).
Proof. exact session_on_alternate. Qed.
Print Assumptions C79_any_session_partial.
(** A dialogue of typed lines whose transcript leaves a row free for the prompt: nothing stops the session, and in the
    end the screen shows the transcript and the prompt. *)
Theorem C79_dialogue_partial : forall pr ord w h g top a db lines se' replies, (forall n, iterates (ord n)) -> valid_settings a -> a_alternate_screen a = true ->
  (forall sd, db = Some sd -> program_file (sd_db sd) /\ forall t, In t (texts_of (sd_db sd)) -> ~ In c_newline t) ->
  Forall typable lines -> 3 <= w -> fits_u16 w -> fits_u16 h -> g_width g = w -> g_height g = h -> ready g top ->
  dialogue pr ord the_executor 0 (new_session a db) lines se' replies ->
  (forall rows phys, transcript (wide w) 0 replies rows -> folded_all w rows phys -> List.length top + List.length phys < h) ->
  exists u g' rows phys, live pr ord the_executor a db (typing_lines lines) g = (u, g', Waiting) /\ session_of u = se' /\
    transcript (wide w) 0 replies rows /\ folded_all w rows phys /\ edits_at g' (top ++ phys) [] 0.
Proof. exact dialogue_live. Qed.
Print Assumptions C79_dialogue_partial.
(** A session on a terminal is a session (of either mode) whose questions are answered with that terminal's width. *)
Theorem C79_live_sessions_are_sessions : forall pr ord x a db evs g u g' st, g_row g < g_height g -> live pr ord x a db evs g = (u, g', st) ->
  exists tm out, tm 0 = (cursor_of g, g_width g) /\ (forall n, snd (tm n) = g_width g) /\
    interactive pr ord x tm a db evs = (u, out, st) /\ g' = grid_after out g.
Proof. exact live_interactive. Qed.
Print Assumptions C79_live_sessions_are_sessions.
(** What was said is determined by the events. *)
Theorem C79_told_determined : forall pr ord x evs u g r1 u1 g1, told pr ord x evs u g r1 u1 g1 ->
  forall r2 u2 g2, told pr ord x evs u g r2 u2 g2 -> r1 = r2 /\ u1 = u2 /\ g1 = g2.
Proof. exact told_unique. Qed.
Print Assumptions C79_told_determined.
(** With no row left for the prompt, the last line and its answer vanish: three rows, two lines typed, and the answer 7
    is neither on the screen nor has it scrolled off. *)
Theorem C79_refuted : exists lines replies u g', told_session Debug (fun _ => order) the_executor (settings0 true) (Some disk0) (typing_lines lines) (blank_grid 20 3) replies u g' /\
  In (lit "2+5", lit "7") replies /\ ~ In (lit "7") (g_gone g' ++ g_rows g') /\ ~ In (lit "# 2+5") (g_gone g' ++ g_rows g').
Proof.
  destruct (interactive_start Debug (answering (blank_grid 20 3)) (settings0 true) (Some disk0)) as [[u0 out0] st0] eqn:S0.
  destruct (tell Debug (fun _ => order) the_executor (typing_lines [lit "1"; lit "2+5"]) u0 (grid_after out0 (blank_grid 20 3))) as [[[r u] g']|] eqn:T.
  2:{ exfalso.
      assert (X : match tell Debug (fun _ => order) the_executor (typing_lines [lit "1"; lit "2+5"]) (fst (fst (interactive_start Debug (answering (blank_grid 20 3)) (settings0 true) (Some disk0))))
        (grid_after (snd (fst (interactive_start Debug (answering (blank_grid 20 3)) (settings0 true) (Some disk0)))) (blank_grid 20 3)) with Some _ => true | None => false end = true) by (vm_compute; reflexivity).
      rewrite S0 in X. cbn [fst snd] in X. rewrite T in X. discriminate X. }
  assert (X : match tell Debug (fun _ => order) the_executor (typing_lines [lit "1"; lit "2+5"]) (fst (fst (interactive_start Debug (answering (blank_grid 20 3)) (settings0 true) (Some disk0))))
        (grid_after (snd (fst (interactive_start Debug (answering (blank_grid 20 3)) (settings0 true) (Some disk0)))) (blank_grid 20 3)) with
      | Some (r, u, g') => (r, g_gone g' ++ g_rows g') | None => ([], []) end = ([(lit "1", lit "1"); (lit "2+5", lit "7")], [lit "# 1"; lit "1"; lit "# "])) by (vm_compute; reflexivity).
  rewrite S0 in X. cbn [fst snd] in X. rewrite T in X. apply pair_equal_spec in X as [Er Eg].
  exists [lit "1"; lit "2+5"], r, u, g'. split; [|split; [rewrite Er; right; left; reflexivity|]].
  - exists u0, out0. assert (st0 = Waiting) as -> by (change st0 with (snd (u0, out0, st0)); rewrite <- S0; vm_compute; reflexivity). split; [exact S0|].
    apply tell_told. exact T.
  - rewrite Eg. split; intros Y; repeat (destruct Y as [Y|Y]; [discriminate Y|]); exact Y.
Qed.
Print Assumptions C79_refuted.
(** Ten columns, eight rows, the cursor on the second: a folded line, a key inside it, Enter, Up, Backspace. *)
Definition deck : grid := mkGrid 10 [] (repeat [] 8) 1 0.
Definition deck_events : list event := keys_of (lit "12345678+1") ++ [EvKey KLeft 0%N; EvKey KEnter 0%N; EvKey KUp 0%N; EvKey KBackspace 0%N].
Example C79_example :
  ready deck [[]] /\ undisturbed deck_events /\ enough_room Debug (fun _ => order) the_executor (settings0 true) (Some disk0) deck_events deck [[]] /\
  let '(u, g, st) := live Debug (fun _ => order) the_executor (settings0 true) (Some disk0) deck_events deck in
  st = Waiting /\ g = mkGrid 10 [] [[]; lit "# 12345678"; lit "  +1"; lit "12345679"; lit "# 12345678"; lit "  +"; []; []] 5 3.
Proof.
  split; [split; [reflexivity|split; [reflexivity|split; [reflexivity|cbn; lia]]]|]. split.
  - apply Forall_forall. intros ev H. unfold deck_events in H. vm_compute in H.
    repeat (destruct H as [<-|H]; [split; [intros (? & X); discriminate X|intros (? & X); discriminate X]|]). destruct H.
  - split; [apply room_check; [cbn; lia|vm_compute; reflexivity]|]. vm_compute. split; reflexivity.
Qed.
(** A dialogue of two lines on seven rows meets the hypotheses of [C79_dialogue_partial]. *)
Example C79_dialogue_example :
  ready (blank_grid 20 7) [] /\
  exists se' replies, dialogue Debug (fun _ => order) the_executor 0 (new_session (settings0 true) (Some disk0)) [lit "1+1"; lit "2 +"] se' replies /\
    forall rows phys, transcript (wide 20) 0 replies rows -> folded_all 20 rows phys -> List.length (@nil str) + List.length phys < 7.
Proof.
  split; [split; [reflexivity|split; [reflexivity|split; [reflexivity|cbn; lia]]]|].
  eexists _, [(lit "1+1", lit "2"); (lit "2 +", lit "Error: Addition Operator (+) is missing a required operand")]. split.
  - eapply dl_line; [vm_compute; reflexivity|constructor|]. eapply dl_line; [vm_compute; reflexivity| |apply dl_end].
    match goal with |- reply_text (Err (InputError ?m)) _ => exact (rt_error m) end.
  - intros rows phys T F. rewrite (script_transcript 20 ltac:(lia) _ _ _ T) in F. rewrite (folds_all 20 _ _ ltac:(lia) F). vm_compute. lia.
Qed.
