(** ProofsSession.v -- the screen, typing and Enter. *)
From Verif Require Import Base Position Num TokenTypes Errors Token SavedData Variables InputHistory
  SyntaxTree Commands Calculate Editor Sessions SpecEval SpecHistory SpecEditor SpecCalc SpecSession.
From Verif Require Import ProofsEval ProofsDb2 ProofsEditor ProofsEditor2 ProofsEditor3 ProofsEditor4 ProofsCalc4 ProofsCalc9 ProofsCommands ProofsCommands2.
From Coq Require Import String Lia.
Local Open Scope nat_scope.
Local Open Scope list_scope.

(** ** The screen *)
Lemma write_end row s : write row (List.length row) s = row ++ s.
Proof.
  unfold write. rewrite Nat.sub_diag. cbn [repeat]. rewrite app_nil_r, firstn_all. rewrite skipn_all2 by lia. rewrite app_nil_r. reflexivity.
Qed.
Lemma print_not_newline s : ~ In c_newline s -> str_eqb s [c_newline] = false.
Proof. intros H. apply ProofsDb2.str_eqb_false. intros ->. apply H. left. reflexivity. Qed.
(** Commands that only append to the current row or start a new one. *)
Inductive tidy : list tcmd -> Prop :=
| td_nil : tidy []
| td_print : forall s cmds, ~ In c_newline s -> tidy cmds -> tidy (Print s :: cmds)
| td_newline : forall cmds, tidy cmds -> tidy (Print [c_newline] :: MoveToColumn 0 :: cmds).
Lemma tidy_app a b : tidy a -> tidy b -> tidy (a ++ b).
Proof. induction 1; intros Hb; cbn [app]; [exact Hb|apply td_print; auto|apply td_newline; auto]. Qed.
Lemma add_text_last rows r s : add_text (rows ++ [r]) s = rows ++ [r ++ s].
Proof. induction rows as [|x rows IH]; [reflexivity|]. cbn [app]. rewrite <- IH. destruct (rows ++ [r]) eqn:E; [destruct rows; discriminate E|]. reflexivity. Qed.
Lemma tidy_screen cmds : tidy cmds -> forall above row, exists above' row',
  screen_after cmds (mkScreen above row (List.length row)) = mkScreen above' row' (List.length row') /\
  fold_left print_to cmds (above ++ [row]) = above' ++ [row'].
Proof.
  induction 1 as [|s cmds Hs H IH|cmds H IH]; intros above row.
  - exists above, row. auto.
  - unfold screen_after. cbn [fold_left on_screen print_to sc_above sc_row sc_col]. rewrite (print_not_newline s Hs). rewrite write_end, add_text_last.
    replace (List.length row + List.length s) with (List.length (row ++ s)) by apply app_length. apply IH.
  - unfold screen_after. cbn [fold_left on_screen print_to sc_above sc_row sc_col]. change (str_eqb [c_newline] [c_newline]) with true. cbn iota. cbn [sc_above sc_row].
    change 0 with (@List.length N []). apply IH.
Qed.
Lemma print_to_prefix pre rows c : rows <> [] -> print_to (pre ++ rows) c = pre ++ print_to rows c /\ print_to rows c <> [].
Proof.
  intros Hn. assert (A : forall s, add_text (pre ++ rows) s = pre ++ add_text rows s /\ add_text rows s <> []).
  { intros s. destruct (exists_last Hn) as (k & e & ->). rewrite app_assoc, !add_text_last, app_assoc. split; [reflexivity|]. destruct k; discriminate. }
  destruct c; cbn [print_to]; auto.
  - split; [rewrite app_assoc; reflexivity|destruct rows; discriminate].
  - destruct (str_eqb s [c_newline]); [|apply A]. split; [rewrite app_assoc; reflexivity|destruct rows; discriminate].
Qed.
Lemma printed_prefix cmds : forall pre rows, rows <> [] -> fold_left print_to cmds (pre ++ rows) = pre ++ fold_left print_to cmds rows.
Proof.
  induction cmds as [|c cmds IH]; intros pre rows Hn; [reflexivity|]. cbn [fold_left]. destruct (print_to_prefix pre rows c Hn) as [-> K]. apply IH. exact K.
Qed.
Lemma tidy_rows cmds above row rows last : tidy cmds -> fold_left print_to cmds [row] = rows ++ [last] ->
  screen_after cmds (mkScreen above row (List.length row)) = mkScreen (above ++ rows) last (List.length last).
Proof.
  intros T E. destruct (tidy_screen cmds T above row) as (a' & r' & -> & F). rewrite printed_prefix, E, app_assoc in F by discriminate.
  apply app_inj_tail in F as [<- <-]. reflexivity.
Qed.
Lemma screen_app a b s : screen_after (a ++ b) s = screen_after b (screen_after a s).
Proof. apply fold_left_app. Qed.

(** ** The echo of a finished line *)
Lemma wrap_rest_tidy line av : ~ In c_newline line -> forall fuel i cmds,
  wrap_rest fuel [Print [c_newline]; MoveToColumn 0] (lit "  ") line av i = Ok cmds -> tidy cmds.
Proof.
  intros Hn. induction fuel as [|fuel IH]; intros i cmds E; cbn [wrap_rest] in E; [discriminate E|].
  destruct (Nat.ltb i (List.length line)); [|apply ok_inj in E as <-; constructor]. cbv zeta in E.
  destruct (slice line i _) as [part|e|p] eqn:S; cbn [bind] in E; try discriminate E.
  destruct (wrap_rest fuel _ _ line av _) as [more|e|p] eqn:W; cbn [bind] in E; try discriminate E. apply ok_inj in E as <-.
  cbn [app]. apply td_newline. apply td_print; [intros [C|[C|[]]]; discriminate C|]. apply td_print; [|eapply IH; exact W].
  unfold slice in S. destruct (_ && _); [|discriminate S]. apply ok_inj in S as <-. intros C. apply Hn. apply in_firstn' in C. apply in_skipn' in C. exact C.
Qed.
Lemma wrapped_tidy pr cols cursor start line out : ~ In c_newline line -> display_wrapped pr false true cols cursor start line = Ok out ->
  exists text, out = [MoveToColumn 0; ClearCurrentLine] ++ text /\ tidy text.
Proof.
  intros Hn D. unfold display_wrapped in D. cbv zeta in D. change (repeat c_space (List.length PROMPT_STR)) with (lit "  ") in D.
  destruct (Nat.ltb _ _); [discriminate D|]. destruct (Nat.eqb _ 0); [discriminate D|].
  destruct (u16_try_from (Nat.div _ _)) as [q|e|p]; cbn [bind] in D; try discriminate D.
  destruct (u16_add pr q _) as [q1|e|p]; cbn [bind] in D; try discriminate D.
  destruct (u16_try_from (_ + _)) as [q2|e|p]; cbn [bind] in D; try discriminate D.
  destruct (slice line 0 _) as [s|e|p] eqn:S; cbn [bind] in D; try discriminate D.
  destruct (wrap_rest _ _ _ _ _ _) as [w|e|p] eqn:W; cbn [bind] in D; try discriminate D. apply ok_inj in D as <-.
  eexists. split; [reflexivity|]. cbn [app]. constructor; [intros [C|[C|[]]]; discriminate C|]. constructor.
  - unfold slice in S. destruct (_ && _); [|discriminate S]. apply ok_inj in S as <-. intros C. apply Hn. apply in_firstn' in C. apply in_skipn' in C. exact C.
  - apply tidy_app; [eapply wrap_rest_tidy; eauto|]. apply td_newline, td_nil.
Qed.
Lemma finished_echo pr cols cursor start line : 3 <= cols -> fits_u16 cols -> fits_u16 (cursor / (cols - 2) + snd start) -> ~ In c_newline line ->
  exists out rows, display_wrapped pr false true cols cursor start line = Ok out /\ echo cols line rows /\
    forall s, screen_after out s = mkScreen (sc_above s ++ rows) [] 0.
Proof.
  intros H3 Hu Hr Hn. destruct (wrapped_ok pr false true cols cursor start line H3 Hu Hr Hn) as (body & E & prefix & text & -> & -> & c1 & cs & P & C & Len & _ & Fo).
  exists ((([MoveToColumn 0; ClearCurrentLine] ++ text) ++ newline_of false)), ((lit "# " ++ c1) :: map (app (lit "  ")) cs).
  split; [exact E|]. split.
  { exists c1, cs. split; [reflexivity|exact Fo]. }
  destruct (wrapped_tidy _ _ _ _ _ _ Hn E) as (text' & E' & T). intros s.
  assert (text' = text ++ newline_of false) by (cbn [app] in E'; congruence). subst text'.
  rewrite E'. rewrite screen_app. change (screen_after [MoveToColumn 0; ClearCurrentLine] s) with (mkScreen (sc_above s) [] (@List.length N [])).
  apply (tidy_rows _ (sc_above s) [] ((lit "# " ++ c1) :: map (app (lit "  ")) cs) [] T).
  rewrite fold_left_app. unfold printed_rows in P. cbn [app fold_left print_to] in P. etransitivity; [exact (f_equal (fold_left print_to (newline_of false)) P)|]. apply newline_rows.
Qed.

(** ** The reply *)
Lemma split_lines_spec s : forall cur, ~ In c_newline cur ->
  split_lines s cur <> [] /\ Forall (fun r => ~ In c_newline r) (split_lines s cur) /\ join_rows (split_lines s cur) = rev cur ++ s.
Proof.
  induction s as [|c s IH]; intros cur Hc; cbn [split_lines].
  - split; [discriminate|]. split; [|cbn [join_rows]; rewrite app_nil_r; reflexivity]. constructor; [rewrite <- in_rev; exact Hc|constructor].
  - destruct (N.eqb_spec c c_newline) as [->|Hne].
    + destruct (IH [] (fun x => x)) as (A & B & C). split; [discriminate|]. split; [constructor; [rewrite <- in_rev; exact Hc|exact B]|].
      cbn [join_rows]. destruct (split_lines s []) as [|r rest] eqn:E; [destruct (A eq_refl)|]. rewrite C. reflexivity.
    + destruct (IH (c :: cur)) as (A & B & C); [intros [X|X]; [destruct (Hne X)|exact (Hc X)]|]. split; [exact A|]. split; [exact B|].
      rewrite C. cbn [rev]. rewrite <- app_assoc. reflexivity.
Qed.
Lemma rows_unique a : forall b, a <> [] -> b <> [] -> Forall (fun r => ~ In c_newline r) a -> Forall (fun r => ~ In c_newline r) b -> join_rows a = join_rows b -> a = b.
Proof.
  assert (Cut : forall (r s x y : str), ~ In c_newline r -> ~ In c_newline s -> r ++ c_newline :: x = s ++ c_newline :: y -> r = s /\ x = y).
  { induction r as [|c r IH]; intros [|d s] x y Hr Hs E; cbn [app] in E.
    - injection E as <-. auto.
    - injection E as <- _. destruct Hs. left. reflexivity.
    - injection E as -> _. destruct Hr. left. reflexivity.
    - injection E as <- E. destruct (IH s x y) as [-> ->]; auto; intros X; [apply Hr|apply Hs]; right; exact X. }
  assert (No : forall (r s y : str), ~ In c_newline r -> r <> s ++ c_newline :: y).
  { intros r s y Hr ->. apply Hr. apply in_app_iff. right. left. reflexivity. }
  induction a as [|r a IH]; intros b Na Nb Ha Hb E; [destruct (Na eq_refl)|]. destruct b as [|s b]; [destruct (Nb eq_refl)|].
  apply Forall_cons_iff in Ha as [Hr Ha]. apply Forall_cons_iff in Hb as [Hs Hb]. cbn [join_rows] in E.
  destruct a as [|r2 a], b as [|s2 b].
  - rewrite E. reflexivity.
  - destruct (No _ _ _ Hr E).
  - symmetry in E. destruct (No _ _ _ Hs E).
  - destruct (Cut _ _ _ _ Hr Hs E) as [-> E2]. f_equal. apply IH; auto; discriminate.
Qed.
Lemma output_screen text : forall above, exists rows, rows_of text rows /\
  screen_after (print_output false text) (mkScreen above [] 0) = mkScreen (above ++ rows) [] 0.
Proof.
  intros above. exists (split_lines text []). destruct (split_lines_spec text [] (fun x => x)) as (A & B & C). split; [split; [exact A|split; [exact B|symmetry; exact C]]|].
  unfold print_output. clear A C. revert above B. induction (split_lines text []) as [|r rows IH]; intros above B; [rewrite app_nil_r; reflexivity|].
  apply Forall_cons_iff in B as [Hr B]. cbn [flat_map app]. unfold screen_after. cbn [fold_left on_screen sc_above sc_row sc_col]. rewrite (print_not_newline r Hr).
  cbn [sc_above sc_row sc_col]. change (write [] 0 r) with (write [] (@List.length N []) r). rewrite write_end. cbn [app]. change (str_eqb [c_newline] [c_newline]) with true. cbn iota. cbn [sc_above sc_row].
  unfold screen_after in IH. rewrite IH by exact B. rewrite <- app_assoc. reflexivity.
Qed.

(** ** The line being edited *)
Lemma scrolling_screen pr cols cursor offset line : 6 <= cols -> fits_u16 cols -> cursor <= List.length line -> ~ In c_newline line ->
  exists off out opener part closer, display_scrolling pr cols cursor offset line = Ok (off, out) /\
    part = firstn (cols - 4) (skipn off line) /\ off <= cursor /\ cursor < off + (cols - 4) /\
    opener = (if Nat.eqb off 0 then lit "# " else lit "< ") /\
    closer = (if Nat.ltb (off + (cols - 4)) (List.length line) then lit " >" else []) /\
    forall s, screen_after out s = mkScreen (sc_above s) (opener ++ part ++ closer) (2 + (cursor - off)).
Proof.
  intros H6 Hu Hc Hn. destruct (scrolling_ok pr cols cursor offset line ltac:(lia) Hu Hc) as (off & opener & part & closer & E & P1 & P2 & P3 & _ & P4 & P5).
  exists off, [MoveToColumn 0; ClearCurrentLine; Print opener; Print part; Print closer; MoveToColumn (2 + (cursor - off))], opener, part, closer.
  split; [exact E|]. split; [exact P1|]. split; [exact P2|]. split; [auto|]. split; [exact P4|]. split; [exact P5|]. intros s.
  change [MoveToColumn 0; ClearCurrentLine; Print opener; Print part; Print closer; MoveToColumn (2 + (cursor - off))] with
    ([MoveToColumn 0; ClearCurrentLine] ++ [Print opener; Print part; Print closer] ++ [MoveToColumn (2 + (cursor - off))]).
  rewrite !screen_app. change (screen_after [MoveToColumn 0; ClearCurrentLine] s) with (mkScreen (sc_above s) [] 0).
  assert (N1 : ~ In c_newline opener) by (rewrite P4; destruct (Nat.eqb off 0); intros [C|[C|[]]]; discriminate C).
  assert (N2 : ~ In c_newline part) by (rewrite P1; intros C; apply Hn; apply in_firstn' in C; apply in_skipn' in C; exact C).
  assert (N3 : ~ In c_newline closer) by (rewrite P5; destruct (Nat.ltb _ _); [intros [C|[C|[]]]; discriminate C|intros []]).
  assert (T : tidy [Print opener; Print part; Print closer]) by (repeat (apply td_print; [assumption|]); apply td_nil).
  destruct (tidy_screen _ T (sc_above s) []) as (a' & r' & E1 & F).
  etransitivity; [exact (f_equal (screen_after [MoveToColumn (2 + (cursor - off))]) E1)|].
  assert (Sh : fold_left print_to [Print opener; Print part; Print closer] (sc_above s ++ [[]]) = sc_above s ++ [opener ++ part ++ closer]).
  { cbn [fold_left print_to]. rewrite !print_not_newline by assumption. rewrite !add_text_last. cbn [app]. rewrite <- app_assoc. reflexivity. }
  pose proof (eq_trans (eq_sym Sh) F) as F'. apply app_inj_tail in F' as [<- <-]. reflexivity.
Qed.

(** ** Typing *)
From Verif Require Import ProofsCalc6 ProofsCalc7 ProofsCalc8.
(** A line being typed at the end, nothing recalled. *)
Record composing (tm : terminal) (u : ui) (t : str) : Prop := mkComposing
  { co_line : ih_current (u_inputs u) = [Some t]; co_index : ih_index (u_inputs u) = 0;
    co_cursor : l_cursor (u_line u) = List.length t;
    co_start : l_start (u_line u) = fst (tm (u_count u)); co_cols : l_cols (u_line u) = snd (tm (u_count u));
    co_inline : a_alternate_screen (u_args u) = false }.
Lemma composing_line {E} tm u t : composing tm u t -> @current_line E (u_inputs u) = Ok t.
Proof. intros H. unfold current_line. rewrite (co_line _ _ _ H), (co_index _ _ _ H). reflexivity. Qed.
Lemma typable_newline t : typable t -> ~ In c_newline t.
Proof. unfold typable. rewrite Forall_forall. intros H Hin. destruct (H _ Hin) as [_ N]. apply N. reflexivity. Qed.
Lemma type_in_twice a b se : type_in b (type_in a se) = type_in b se.
Proof. unfold type_in. destruct (s_inputs se) eqn:E; cbn [s_inputs]; [reflexivity|]. rewrite E. reflexivity. Qed.
Lemma composing_session tm u t : composing tm u t -> type_in t (session_of u) = session_of u.
Proof.
  intros H. unfold type_in, session_of. cbn [s_inputs s_args s_env]. do 2 f_equal.
  pose proof (co_line _ _ _ H) as A. pose proof (co_index _ _ _ H) as B. destruct (u_inputs u). cbn in *. congruence.
Qed.
Lemma redraw_inline pr (l : line_state) h t : @current_line runtime_error h = Ok t -> 6 <= l_cols l -> fits_u16 (l_cols l) -> l_cursor l <= List.length t -> ~ In c_newline t ->
  exists off out, display pr false false l h = Ok (mkLine (l_cursor l) off (l_start l) (l_cols l), out) /\
    (forall s, sc_above (screen_after out s) = sc_above s) /\
    (t = [] -> forall s, screen_after out s = mkScreen (sc_above s) (lit "# ") 2).
Proof.
  intros E H6 Hu Hc Hn. unfold display. rewrite E. cbn [bind orb].
  destruct (scrolling_screen pr (l_cols l) (l_cursor l) (l_scroll l) t H6 Hu Hc Hn) as (off & out & opener & part & closer & D & P1 & P2 & P3 & P4 & P5 & S).
  rewrite D. cbn [bind]. exists off, out. split; [reflexivity|]. split; [intros s; rewrite S; reflexivity|].
  intros Et s. rewrite S. subst t. cbn [List.length] in Hc. assert (l_cursor l = 0) as X by lia. rewrite X in *. assert (off = 0) as -> by lia. cbn in P4. subst opener part closer. destruct (l_cols l - 4); reflexivity.
Qed.
Lemma key_step pr ord x tm u t c : composing tm u t -> is_ascii c = true -> c <> c_newline -> ~ In c_newline t ->
  6 <= snd (tm (u_count u)) -> fits_u16 (snd (tm (u_count u))) ->
  exists u' out, ui_step pr ord x tm (EvKey (KChar c) 0) u = (u', out, Waiting) /\ composing tm u' (t ++ [c]) /\
    session_of u' = type_in (t ++ [c]) (session_of u) /\ u_count u' = u_count u /\
    forall s, sc_above (screen_after out s) = sc_above s.
Proof.
  intros H Ha Hc Hn H6 Hu. unfold ui_step. cbn [handle_event]. unfold handle_char. rewrite Ha. cbn [negb]. change (N.eqb 0 CONTROL) with false. cbn [andb].
  change (N.eqb 0 SHIFT) with false. change (N.eqb 0 0) with true. cbn [negb].
  set (h' := mkIH (ih_internal (u_inputs u)) (ih_db (u_inputs u)) [Some (t ++ [c])] 0 (ih_exhausted (u_inputs u))).
  assert (I : @insert_char runtime_error (u_inputs u) (l_cursor (u_line u)) c = Ok h').
  { unfold insert_char, edit_current, ensure_populated. rewrite (co_line _ _ _ H), (co_index _ _ _ H), (co_cursor _ _ _ H). cbn [nth_ok nth_error bind].
    rewrite (co_line _ _ _ H), (co_index _ _ _ H). cbn [nth_ok nth_error bind]. unfold string_insert. rewrite Nat.leb_refl. cbn [bind].
    rewrite firstn_all, skipn_all. cbn [list_set]. reflexivity. }
  rewrite I. cbn [or_stop]. rewrite (co_inline _ _ _ H).
  set (l' := with_cursor (u_line u) (l_cursor (u_line u) + 1)).
  destruct (redraw_inline pr l' h' (t ++ [c]) eq_refl) as (off & out & D & S & _).
  - cbn [l' with_cursor l_cols]. rewrite (co_cols _ _ _ H). exact H6.
  - cbn [l' with_cursor l_cols]. rewrite (co_cols _ _ _ H). exact Hu.
  - cbn [l' with_cursor l_cursor]. rewrite (co_cursor _ _ _ H), app_length. cbn. lia.
  - rewrite in_app_iff. intros [X|[X|[]]]; [exact (Hn X)|exact (Hc X)].
  - rewrite D. eexists _, out. split; [reflexivity|]. split.
    { constructor; cbn; try reflexivity; [rewrite (co_cursor _ _ _ H), app_length; cbn; lia|exact (co_start _ _ _ H)|exact (co_cols _ _ _ H)|exact (co_inline _ _ _ H)]. }
    split; [reflexivity|]. split; [reflexivity|exact S].
Qed.
Lemma run_events_app pr ord x tm a : forall b u, run_events pr ord x tm (a ++ b) u =
  match run_events pr ord x tm a u with
  | (u', out, Waiting) => let '(u'', out', st) := run_events pr ord x tm b u' in (u'', out ++ out', st)
  | stopped => stopped
  end.
Proof.
  induction a as [|ev a IH]; intros b u; cbn [app run_events].
  - destruct (run_events pr ord x tm b u) as [[u' out] st]. reflexivity.
  - destruct (ui_step pr ord x tm ev u) as [[u' out] st]. destruct st; try reflexivity. rewrite IH.
    destruct (run_events pr ord x tm a u') as [[u1 out1] st1]. destruct st1; try reflexivity.
    destruct (run_events pr ord x tm b u1) as [[u2 out2] st2]. rewrite app_assoc. reflexivity.
Qed.
Lemma type_line pr ord x tm line : forall u t, composing tm u t -> typable (t ++ line) ->
  6 <= snd (tm (u_count u)) -> fits_u16 (snd (tm (u_count u))) ->
  exists u' out, run_events pr ord x tm (keys_of line) u = (u', out, Waiting) /\ composing tm u' (t ++ line) /\
    session_of u' = type_in (t ++ line) (session_of u) /\ u_count u' = u_count u /\
    forall s, sc_above (screen_after out s) = sc_above s.
Proof.
  induction line as [|c line IH]; intros u t H Ht H6 Hu.
  - exists u, []. rewrite app_nil_r. split; [reflexivity|]. split; [exact H|]. split; [symmetry; eapply composing_session; exact H|]. auto.
  - pose proof (proj1 (Forall_app _ _ _) Ht) as [Ht1 Ht2]. apply Forall_cons_iff in Ht2 as [[Ha Hc] _]. apply N.ltb_lt in Ha.
    destruct (key_step pr ord x tm u t c H Ha Hc (typable_newline _ Ht1) H6 Hu) as (u1 & out1 & E1 & C1 & S1 & K1 & P1).
    destruct (IH u1 (t ++ [c]) C1) as (u2 & out2 & E2 & C2 & S2 & K2 & P2).
    + rewrite <- app_assoc. exact Ht.
    + rewrite K1. exact H6.
    + rewrite K1. exact Hu.
    + rewrite <- app_assoc in C2, S2. exists u2, (out1 ++ out2). split.
      { unfold keys_of in *. cbn [map run_events]. rewrite E1, E2. reflexivity. }
      split; [exact C2|]. split; [rewrite S2, S1; apply type_in_twice|]. split; [congruence|].
      intros s. rewrite screen_app, P2, P1. reflexivity.
Qed.

(** ** Enter *)
Lemma calculate_fresh pr ord x input a h s se' r line : @current_line runtime_error h = Ok line ->
  calculate pr ord x input (mkSession a (Some h) s) = (se', r) ->
  s_inputs se' = Some (mkIH (ih_internal h ++ [line]) (ih_db h) [Some []] 0 (ih_exhausted h)).
Proof.
  intros L C. unfold calculate in C. cbn [s_inputs s_env s_args] in C.
  assert (Fin : forall h1 db1 o, input_finished h (e_db s) = (h1, db1, o) -> h1 = mkIH (ih_internal h ++ [line]) (ih_db h) [Some []] 0 (ih_exhausted h)).
  { intros h1 db1 o F. unfold input_finished in F. rewrite L in F.
    destruct (e_db s) as [sd|]; [destruct (add_to_input_history line sd) as [sd' [i|e|p]]|]; apply pair_equal_spec in F as [F _]; apply pair_equal_spec in F as [<- _]; reflexivity. }
  destruct (input_finished h (e_db s)) as [[h1 db1] o]. rewrite <- (Fin _ _ _ eq_refl).
  destruct o as [id|e|p]; [destruct (calculate_body _ _ _ _ _ _ _) as [[a1 s1] r1]| |]; apply pair_equal_spec in C as [<- _]; reflexivity.
Qed.
Lemma reply_render r text : reply_text r text <-> render r = Ok text.
Proof.
  split; [intros []; reflexivity|]. destruct r as [s|[m|e]|p]; intros E; cbn [render] in E; try discriminate E; apply ok_inj in E as <-; constructor.
Qed.
Lemma div_le n d : n / d <= n.
Proof. destruct d; [cbn; lia|]. apply Nat.div_le_upper_bound; lia. Qed.
Lemma enter_step pr ord tm u line mods se' r text : (forall n, iterates (ord n)) -> ui_good u ->
  @current_line runtime_error (u_inputs u) = Ok line -> l_cursor (u_line u) <= List.length line -> ~ In c_newline line -> a_alternate_screen (u_args u) = false ->
  3 <= l_cols (u_line u) -> fits_u16 (l_cols (u_line u)) -> fits_u16 (l_cursor (u_line u) / (l_cols (u_line u) - 2) + snd (l_start (u_line u))) ->
  6 <= snd (tm (S (u_count u))) -> fits_u16 (snd (tm (S (u_count u)))) ->
  calculate pr (ord (u_count u)) the_executor line (session_of u) = (se', r) -> reply_text r text ->
  exists u' out e rows, ui_step pr ord the_executor tm (EvKey KEnter mods) u = (u', out, Waiting) /\ composing tm u' [] /\
    session_of u' = se' /\ u_count u' = S (u_count u) /\ ui_good u' /\
    echo (l_cols (u_line u)) line e /\ rows_of text rows /\
    forall s, screen_after out s = mkScreen (sc_above s ++ e ++ rows) (lit "# ") 2.
Proof.
  intros Ho G L Hc Hn Hi H3 Hu Hr H6 Hu2 C T. unfold ui_step. cbn [handle_event].
  assert (G0 : ui_good (fst (fst (finish_line pr ord the_executor tm u)))) by (apply finish_line_good; assumption).
  replace (mkUi (u_args u) (u_vars u) (u_db u) (u_inputs u) (u_line u) (u_count u)) with u by (destruct u; reflexivity).
  unfold finish_line in G0 |- *. cbv zeta in G0 |- *. rewrite Hi in G0 |- *. unfold display in G0 |- *. rewrite L in G0 |- *. cbn [bind orb] in G0 |- *.
  destruct (finished_echo pr (l_cols (u_line u)) (l_cursor (u_line u)) (l_start (u_line u)) line H3 Hu Hr Hn) as (out1 & e & D & Ec & S1).
  rewrite D in G0 |- *. cbn [bind] in G0 |- *.
  change (mkSession (u_args u) (Some (u_inputs u)) (mkEnv (Some (u_vars u)) (u_db u))) with (session_of u) in G0 |- *. rewrite C in G0 |- *.
  rewrite (proj1 (reply_render _ _) T) in G0 |- *. destruct G as (A & B & R).
  destruct (calculate_valid _ _ _ _ (session_of u) _ _ A B (Ho _) C) as (A' & B' & V).
  destruct (e_vars (s_env se')) as [m'|] eqn:Em; [|exfalso; cbn in V; destruct V as [_ V]; discriminate (V eq_refl)].
  pose proof (line_screen _ _ _ (session_of u) _ _ C) as Al. cbn [session_of s_args] in Al. rewrite Hi in Al.
  pose proof (calculate_fresh _ _ _ _ _ _ _ _ _ _ L C) as Fr. rewrite Fr in G0 |- *.
  unfold start_line in G0 |- *. cbn [u_args u_inputs u_count u_vars u_db] in G0 |- *. rewrite Al in G0 |- *.
  set (h' := mkIH _ _ _ _ _) in G0 |- *.
  destruct (redraw_inline pr (mkLine 0 0 (fst (tm (S (u_count u)))) (snd (tm (S (u_count u))))) h' [] eq_refl H6 Hu2 (Nat.le_0_l _) (fun x => x)) as (off & out3 & D3 & _ & S3).
  rewrite D3 in G0 |- *. destruct (output_screen text (sc_above blank ++ e)) as (rows & Hrows & _).
  eexists _, _, e, rows. split; [reflexivity|]. split; [constructor; cbn; auto|]. split.
  { unfold session_of. cbn [u_args u_inputs u_vars u_db]. destruct se' as [a1 i1 [v1 d1]]. cbn in Em, Fr |- *. rewrite Em, Fr. reflexivity. }
  split; [reflexivity|]. split; [exact G0|]. split; [exact Ec|]. split; [exact Hrows|]. intros s.
  rewrite !screen_app, S1. destruct (output_screen text (sc_above s ++ e)) as (rows' & Hrows' & S2).
  assert (rows' = rows) as ->.
  { destruct Hrows as (X1 & X2 & X3), Hrows' as (Y1 & Y2 & Y3). apply rows_unique; auto. congruence. }
  rewrite S2, (S3 eq_refl). cbn [sc_above]. rewrite app_assoc. reflexivity.
Qed.

(** ** Whole dialogues *)
Lemma dialogue_run pr ord tm : (forall n, iterates (ord n)) -> forall lines n se se' replies u,
  dialogue pr ord the_executor n se lines se' replies ->
  n = u_count u -> se = session_of u -> composing tm u [] -> ui_good u ->
  Forall typable lines -> (forall line, In line lines -> roomy tm (List.length line)) ->
  exists u' out rows, run_events pr ord the_executor tm (typing_lines lines) u = (u', out, Waiting) /\
    session_of u' = se' /\ composing tm u' [] /\ ui_good u' /\ transcript tm n replies rows /\
    forall s, screen_after out (mkScreen s (lit "# ") 2) = mkScreen (s ++ rows) (lit "# ") 2.
Proof.
  intros Ho. induction lines as [|line lines IH]; intros n se se' replies u D En Es Co G Ht Hr.
  - inversion D; subst. exists u, [], []. split; [reflexivity|]. split; [reflexivity|]. split; [exact Co|]. split; [exact G|]. split; [constructor|]. intros s. rewrite app_nil_r. reflexivity.
  - inversion D as [|? ? ? ? se1 r text ? rest C T D']; subst. apply Forall_cons_iff in Ht as [Ht Hts].
    pose proof (Hr line (or_introl eq_refl)) as Hline. destruct (Hline (u_count u)) as (H6 & Hu & Hf). destruct (Hline (S (u_count u))) as (H6' & Hu' & _).
    destruct (type_line pr ord the_executor tm line u [] Co Ht H6 Hu) as (u1 & out1 & E1 & C1 & S1 & K1 & P1). cbn [app] in C1, S1.
    rewrite <- S1 in C.
    assert (G1 : ui_good u1) by (pose proof (run_events_good pr ord the_executor tm (keys_of line) Ho u G) as X; rewrite E1 in X; exact X).
    rewrite <- K1 in C, H6, Hu, Hf, H6', Hu'.
    destruct (enter_step pr ord tm u1 line 0 se1 r text Ho G1 (composing_line _ _ _ C1)) as (u2 & out2 & e & rows & E2 & C2 & S2 & K2 & G2 & Ec & Rw & P2); auto.
    { rewrite (co_cursor _ _ _ C1). lia. }
    { apply typable_newline. exact Ht. }
    { exact (co_inline _ _ _ C1). }
    { rewrite (co_cols _ _ _ C1). lia. }
    { rewrite (co_cols _ _ _ C1). exact Hu. }
    { rewrite (co_cols _ _ _ C1), (co_start _ _ _ C1), (co_cursor _ _ _ C1). unfold fits_u16 in *. pose proof (div_le (List.length line) (snd (tm (u_count u1)) - 2)). lia. }
    destruct (IH (S (u_count u)) se1 se' rest u2 D' ltac:(congruence) (eq_sym S2) C2 G2 Hts (fun l H => Hr l (or_intror H))) as (u3 & out3 & rows3 & E3 & S3 & C3 & G3 & T3 & P3).
    exists u3, (out1 ++ out2 ++ out3), (e ++ rows ++ rows3). split.
    { change (typing_lines (line :: lines)) with ((keys_of line ++ [enter_key]) ++ typing_lines lines).
      rewrite <- app_assoc, run_events_app, E1. cbn [app run_events]. unfold enter_key. rewrite E2.
      rewrite E3. reflexivity. }
    split; [exact S3|]. split; [exact C3|]. split; [exact G3|]. split.
    { econstructor; eauto. rewrite (co_cols _ _ _ C1), K1 in Ec. exact Ec. }
    intros s. rewrite !screen_app, P2, P1. cbn [sc_above]. rewrite P3. rewrite <- !app_assoc. reflexivity.
Qed.
Lemma dialogue_interactive pr ord tm a db lines se' replies : (forall n, iterates (ord n)) -> valid_settings a -> a_alternate_screen a = false ->
  (forall sd, db = Some sd -> program_file (sd_db sd)) -> Forall typable lines -> roomy tm 0 -> (forall line, In line lines -> roomy tm (List.length line)) ->
  dialogue pr ord the_executor 0 (new_session a db) lines se' replies ->
  exists u out rows, interactive pr ord the_executor tm a db (typing_lines lines) = (u, out, Waiting) /\
    session_of u = se' /\ transcript tm 0 replies rows /\ shown (u_inputs u) = Ok [] /\
    screen_after out blank = mkScreen rows (lit "# ") 2.
Proof.
  intros Ho Ha Hi Hd Ht R0 Hr D. unfold interactive, interactive_start.
  set (u0 := mkUi a vs_new db (ih_new (match db with Some _ => true | None => false end)) (mkLine 0 0 (0, 0) 0) 0).
  assert (G : ui_good (fst (fst (start_line pr tm u0)))).
  { apply start_line_good. split; [exact Ha|]. split; [split|].
    - intros m y v E. cbn in E. injection E as <-. discriminate.
    - intros sd E. apply file_rows, Hd, E.
    - intros sd E. apply Hd, E. }
  unfold start_line in *. cbn [u0 u_args u_vars u_db u_inputs u_line u_count] in *. rewrite Hi in *. destruct (R0 0) as (H6 & Hu & _).
  destruct (redraw_inline pr (mkLine 0 0 (fst (tm 0)) (snd (tm 0))) (ih_new (match db with Some _ => true | None => false end)) [] eq_refl H6 Hu (Nat.le_0_l _) (fun x => x)) as (off & out0 & D0 & _ & S0).
  rewrite D0 in *. cbn [fst] in G. subst u0.
  match type of G with ui_good ?w => set (u1 := w) in * end.
  destruct (dialogue_run pr ord tm Ho lines 0 (new_session a db) se' replies u1 D eq_refl eq_refl) as (u & out & rows & E & S & C & _ & T & P); auto.
  { constructor; try reflexivity. exact Hi. }
  exists u, (out0 ++ out), rows. rewrite E. split; [reflexivity|]. split; [exact S|]. split; [exact T|]. split; [exact (composing_line _ _ _ C)|].
  rewrite screen_app, (S0 eq_refl). cbn [sc_above blank]. apply P.
Qed.
