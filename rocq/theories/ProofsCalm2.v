(** ProofsCalm2.v -- without external database failures an interactive session meets none. *)
From Verif Require Import Base Position Num TokenTypes Errors Token SavedData Variables InputHistory
  SyntaxTree Commands Calculate Editor Sessions SpecGrammar SpecEval SpecHistory SpecEditor SpecCalc SpecSession.
From Verif Require Import ProofsNum ProofsEval ProofsEval2 ProofsEval3 ProofsParse ProofsParse2 ProofsParse3
  ProofsDb ProofsDb2 ProofsDb3 ProofsDb4 ProofsDb5 ProofsEditor ProofsEditor2 ProofsEditor4
  ProofsCalc ProofsCalc2 ProofsCalc3 ProofsCalc4 ProofsCalc5 ProofsCalc6 ProofsCalc7 ProofsCalc8 ProofsCalc9 ProofsCalc10 ProofsCalm.
From Coq Require Import String Permutation Lia.
Local Open Scope nat_scope.
Local Open Scope list_scope.

Lemma edit_cases {E} f h (r : outcome E input_history) : edit_current f h = r ->
  (forall s e, f s = Err e -> False) ->
  (forall e, r <> Err e) /\ (forall h', r = Ok h' -> ih_exhausted h' = ih_exhausted h).
Proof.
  intros <- Hf. unfold edit_current, ensure_populated.
  destruct (nth_ok (ih_current h) (ih_index h)) as [[s|]|e|p] eqn:N; cbn [bind].
  - rewrite N. cbn [bind]. destruct (f s) as [s'|e|p] eqn:F; cbn [bind]; [|destruct (Hf _ _ F)|split; discriminate].
    split; [discriminate|]. intros h' X. apply ok_inj in X as <-. reflexivity.
  - destruct (current_line h) as [line|e|p] eqn:L; cbn [bind]; [|destruct (current_no_err _ _ L)|split; discriminate].
    cbn [ih_current ih_index ih_internal ih_db ih_exhausted]. destruct (nth_ok (list_set _ _ _) _) as [[s|]|e|p] eqn:N2; cbn [bind]; [|split; discriminate|destruct (nth_no_err _ _ _ N2)|split; discriminate].
    destruct (f s) as [s'|e|p] eqn:F; cbn [bind]; [|destruct (Hf _ _ F)|split; discriminate].
    split; [discriminate|]. intros h' X. apply ok_inj in X as <-. reflexivity.
  - destruct (nth_no_err _ _ _ N).
  - split; discriminate.
Qed.
Lemma insert_cases {E} h i c (r : outcome E input_history) : insert_char h i c = r ->
  (forall e, r <> Err e) /\ (forall h', r = Ok h' -> ih_exhausted h' = ih_exhausted h).
Proof. intros H. eapply edit_cases; [exact H|]. intros s e. unfold string_insert. destruct (Nat.leb _ _); discriminate. Qed.
Lemma remove_cases {E} h i (r : outcome E input_history) : remove_char h i = r ->
  (forall e, r <> Err e) /\ (forall h', r = Ok h' -> ih_exhausted h' = ih_exhausted h).
Proof. intros H. eapply edit_cases; [exact H|]. intros s e. unfold string_remove. destruct (Nat.ltb _ _); discriminate. Qed.

(** The database does not fail, and a session without one does not look for it. *)
Definition steady (h : input_history) (db : option saved_data) : Prop :=
  calm_odb db /\ (db = None -> ih_exhausted h = true).
Lemma steady_same h h' db : ih_exhausted h' = ih_exhausted h -> steady h db -> steady h' db.
Proof. intros E (A & B). split; [exact A|]. rewrite E. exact B. Qed.
Lemma get_prev_calm sd sd' o : calm sd -> get_prev_input_history sd = (sd', o) -> calm sd' /\ (forall e, o <> Err e) /\ (forall p, o <> Panic p).
Proof.
  intros C. unfold get_prev_input_history. destruct (sd_pos sd) as [id|]; [|intros E; apply pair_equal_spec in E as [<- <-]; split; [exact C|split; discriminate]].
  destruct (sd_call _ sd) as [sd1 o1] eqn:S. destruct (calm_call _ _ _ _ C S) as (C1 & K). cbv beta iota in K. destruct K as (-> & _).
  destruct (find_hist _ _); intros E; apply pair_equal_spec in E as [<- <-]; (split; [exact C1|split; discriminate]).
Qed.
Lemma try_earlier_steady h db h' db' r : steady h db -> try_earlier h db = (h', db', r) -> steady h' db' /\ forall e, r <> Err e.
Proof.
  intros (A & B). unfold try_earlier. destruct (Nat.leb _ _).
  2:{ intros E. apply pair_equal_spec in E as [E <-]. apply pair_equal_spec in E as [<- <-]. split; [|discriminate]. split; [exact A|exact B]. }
  destruct (ih_exhausted h) eqn:X.
  { intros E. apply pair_equal_spec in E as [E <-]. apply pair_equal_spec in E as [<- <-]. split; [|discriminate]. split; [exact A|auto]. }
  destruct db as [sd|]; [|discriminate (B eq_refl)].
  destruct (get_prev_input_history sd) as [sd' o] eqn:G. destruct (get_prev_calm _ _ _ (A sd eq_refl) G) as (C & N1 & N2).
  assert (A' : calm_odb (Some sd')) by (intros s0 [= <-]; exact C).
  destruct o as [[t|]|e|p]; [| |destruct (N1 e eq_refl)|destruct (N2 p eq_refl)];
    intros E; apply pair_equal_spec in E as [E <-]; apply pair_equal_spec in E as [<- <-]; (split; [|discriminate]); (split; [exact A'|discriminate]).
Qed.

Definition steady_result (r : ev_result) : Prop :=
  let '(_, h', db', act) := r in steady h' db' /\ forall e, act = AFail e -> e = paste_error.
Lemma or_stop_steady {A} (r : outcome runtime_error A) l h db k : steady h db -> (forall e, r <> Err e) ->
  (forall a, r = Ok a -> steady_result (k a)) -> steady_result (or_stop r l h db k).
Proof. intros S N K. destruct r as [a|e|p]; cbn [or_stop]; [apply K; reflexivity|destruct (N e eq_refl)|split; [exact S|discriminate]]. Qed.
Lemma current_steady h : forall e, @current_line runtime_error h <> Err e.
Proof. intros e E. exact (current_no_err _ _ E). Qed.
Lemma paren_search_no_err fuel bytes left o c : forall pos count e, paren_search fuel bytes left o c pos count <> Err e.
Proof.
  induction fuel as [|f IH]; intros pos count e; cbn [paren_search]; [discriminate|].
  destruct (nth_ok bytes pos) as [b|e'|p] eqn:N; cbn [bind]; [|destruct (nth_no_err _ _ _ N)|discriminate].
  destruct (N.eqb b o); [|destruct (N.eqb b c); [destruct (Nat.eqb count 0)|]]; cbn [bind]; try discriminate;
    (destruct (Nat.eqb _ 0); [discriminate|]; destruct (left && _); [discriminate|]; destruct (negb left && _); [discriminate|apply IH]).
Qed.
Lemma paren_jump_no_err line c e : paren_jump line c <> Err e.
Proof.
  unfold paren_jump. destruct (Nat.ltb _ 2); [discriminate|]. cbv zeta. destruct (nth_ok line _) as [b|e'|p] eqn:N; cbn [bind]; [|destruct (nth_no_err _ _ _ N)|discriminate].
  destruct (N.eqb b c_open); [apply paren_search_no_err|]. destruct (N.eqb b c_close); [apply paren_search_no_err|discriminate].
Qed.
Lemma handle_event_steady ev l h db : steady h db -> steady_result (handle_event ev l h db).
Proof.
  intros S. assert (Keep : forall l' act, (forall e, act <> AFail e) -> steady_result (l', h, db, act)) by (intros l' act N; split; [exact S|intros e ->; destruct (N e eq_refl)]).
  destruct ev as [code mods| |width|]; try (apply Keep; discriminate); [|split; [exact S|intros e [= <-]; reflexivity]].
  cbn [handle_event]. destruct code as [c| | | | | | | | | |]; try (apply Keep; discriminate).
  - unfold handle_char. destruct (negb (is_ascii c)); [apply Keep; discriminate|].
    destruct (N.eqb mods CONTROL && (N.eqb c 100 || N.eqb c 122 || N.eqb c 99)); [apply Keep; discriminate|].
    assert (Ins : forall c', steady_result (or_stop (insert_char h (l_cursor l) c') l h db (fun h' => (with_cursor l (l_cursor l + 1), h', db, ARedraw)))).
    { intros c'. destruct (insert_cases (E:=runtime_error) h (l_cursor l) c' _ eq_refl) as (N & K). apply or_stop_steady; [exact S|exact N|].
      intros h' E. split; [|discriminate]. eapply steady_same; [apply K; exact E|exact S]. }
    destruct (N.eqb mods CONTROL && (N.eqb c 109 || N.eqb c 110)).
    { apply or_stop_steady; [exact S|apply current_steady|]. intros t _. apply or_stop_steady; [exact S|intros e; apply paren_jump_no_err|].
      intros [q|] _; apply Keep; discriminate. }
    destruct (N.eqb mods SHIFT); [apply Ins|]. destruct (negb (N.eqb mods 0)); [apply Keep; discriminate|apply Ins].
  - destruct (Nat.eqb (l_cursor l) 0); [apply Keep; discriminate|]. destruct (remove_cases (E:=runtime_error) h (l_cursor l - 1) _ eq_refl) as (N & K).
    apply or_stop_steady; [exact S|exact N|]. intros h' E. split; [|discriminate]. eapply steady_same; [apply K; exact E|exact S].
  - apply or_stop_steady; [exact S|apply current_steady|]. intros t _. destruct (Nat.leb _ _); [apply Keep; discriminate|].
    destruct (remove_cases (E:=runtime_error) h (l_cursor l) _ eq_refl) as (N & K).
    apply or_stop_steady; [exact S|exact N|]. intros h' E. split; [|discriminate]. eapply steady_same; [apply K; exact E|exact S].
  - destruct (try_earlier h db) as [[h' db'] r] eqn:E. destruct (try_earlier_steady _ _ _ _ _ S E) as (S' & N).
    destruct r as [[|]|e|p]; [|split; [exact S'|discriminate]|destruct (N e eq_refl)|split; [exact S'|discriminate]].
    apply or_stop_steady; [exact S'|apply current_steady|]. intros t _. split; [exact S'|discriminate].
  - destruct (try_later h) as [h' b] eqn:E. assert (S' : steady h' db).
    { eapply steady_same; [|exact S]. unfold try_later in E. destruct (ih_index h); apply pair_equal_spec in E as [<- _]; reflexivity. }
    destruct b; [|split; [exact S'|discriminate]].
    apply or_stop_steady; [exact S'|apply current_steady|]. intros t _. split; [exact S'|discriminate].
  - destruct (move_distance mods); apply Keep; discriminate.
  - destruct (move_distance mods); [|apply Keep; discriminate]. apply or_stop_steady; [exact S|apply current_steady|]. intros t _. apply Keep; discriminate.
  - apply or_stop_steady; [exact S|apply current_steady|]. intros t _. apply Keep; discriminate.
Qed.

(** Failures to display. *)
Lemma u16_err n e : u16_try_from n = Err e -> e = IntConversionError.
Proof. unfold u16_try_from. destruct (N.ltb _ _); [discriminate|congruence]. Qed.
Lemma slice_no_err {E} s a b (e : E) : slice s a b <> Err e.
Proof. unfold slice. destruct (_ && _); discriminate. Qed.
Lemma wrap_no_err fuel nl w s av : forall i e, wrap_rest fuel nl w s av i <> Err e.
Proof.
  induction fuel as [|f IH]; intros i e; cbn [wrap_rest]; [discriminate|]. destruct (Nat.ltb i _); [|discriminate]. cbv zeta.
  destruct (slice s i _) as [x|e'|p] eqn:S; cbn [bind]; [|destruct (slice_no_err _ _ _ _ S)|discriminate].
  destruct (wrap_rest f nl w s av _) as [y|e'|p] eqn:W; cbn [bind]; [discriminate|destruct (IH _ _ W)|discriminate].
Qed.
Lemma display_errors pr alt c l h e : display pr alt c l h = Err e -> display_failure e.
Proof.
  unfold display. destruct (current_line h) as [t|e'|p] eqn:L; cbn [bind]; [|destruct (current_no_err _ _ L)|discriminate].
  destruct (alt || c).
  - destruct (display_wrapped pr alt c (l_cols l) (l_cursor l) (l_start l) t) as [o|e'|p] eqn:D; cbn [bind]; try discriminate. intros [= <-].
    unfold display_wrapped in D. cbv zeta in D. destruct (Nat.ltb _ _); [injection D as <-; left; reflexivity|]. destruct (Nat.eqb _ 0); [discriminate D|].
    destruct (u16_try_from (Nat.div _ _)) as [q|e1|p] eqn:U1; cbn [bind] in D; [|injection D as <-; right; eapply u16_err; eauto|discriminate D].
    destruct (u16_add pr q _) as [q1|e1|p] eqn:U2; cbn [bind] in D; [|unfold u16_add in U2; destruct (N.ltb _ _); [discriminate U2|destruct pr; discriminate U2]|discriminate D].
    destruct (u16_try_from (_ + _)) as [q2|e1|p] eqn:U3; cbn [bind] in D; [|injection D as <-; right; eapply u16_err; eauto|discriminate D].
    destruct (slice t 0 _) as [s|e1|p] eqn:S; cbn [bind] in D; [|destruct (slice_no_err _ _ _ _ S)|discriminate D].
    destruct (wrap_rest _ _ _ _ _ _) as [w|e1|p] eqn:W; cbn [bind] in D; [discriminate D|destruct (wrap_no_err _ _ _ _ _ _ _ W)|discriminate D].
  - destruct (display_scrolling pr (l_cols l) (l_cursor l) (l_scroll l) t) as [[o o2]|e'|p] eqn:D; cbn [bind]; try discriminate. intros [= <-].
    unfold display_scrolling in D. cbv zeta in D. destruct (Nat.leb _ _); [injection D as <-; left; reflexivity|]. destruct (Nat.ltb (l_cursor l) _); [discriminate D|].
    destruct (u16_try_from _) as [q|e1|p] eqn:U; cbn [bind] in D; [|injection D as <-; right; eapply u16_err; eauto|discriminate D].
    destruct (slice t _ _) as [s|e1|p] eqn:S; cbn [bind] in D; [discriminate D|destruct (slice_no_err _ _ _ _ S)|discriminate D].
Qed.

Definition ui_steady (u : ui) : Prop := ui_good u /\ steady (u_inputs u) (u_db u).
Definition harmless (st : status) : Prop := forall e, st = Failed e -> display_failure e \/ e = paste_error.
Lemma harmless_display e : display_failure e -> harmless (Failed e).
Proof. intros H e' [= <-]. left. exact H. Qed.

Lemma start_line_steady pr tm u : ui_steady u -> ui_steady (fst (fst (start_line pr tm u))) /\ harmless (snd (start_line pr tm u)).
Proof.
  intros (G & S). pose proof (start_line_good pr tm u G) as G'. unfold start_line in *. cbv zeta in *.
  destruct (display pr (a_alternate_screen (u_args u)) false _ (u_inputs u)) as [[l' o]|e|p] eqn:D; cbn [fst snd] in *.
  - split; [split; [exact G'|exact S]|intros e0; discriminate].
  - split; [split; [exact G'|exact S]|]. apply harmless_display. eapply display_errors; eauto.
  - split; [split; [exact G'|exact S]|intros e0; discriminate].
Qed.
Lemma calculate_db pr ord x input se se' r : valid_settings (s_args se) -> env_ok (s_env se) -> iterates ord ->
  calculate pr ord x input se = (se', r) -> (e_db (s_env se) = None <-> e_db (s_env se') = None).
Proof.
  intros Ha Hs Ho C. destruct (recording_ok se Hs) as (Rok & Rv & Rn & _). rewrite Rn.
  destruct (calculate_cases _ _ _ _ _ _ _ C) as [(A & B & _)|(id & B & Hid & _)]; [rewrite B; tauto|].
  destruct (tokenize input (a_radix (s_args se))) as [[ts|name arguments]|e|p] eqn:T.
  all: swap 1 2.
  - destruct (body_command _ _ _ _ _ _ _ _ _ _ _ _ Ha Rok Ho T B) as (_ & _ & _ & X & _). exact X.
  - destruct (body_expression _ _ _ _ _ _ _ _ _ _ _ Ha Rok ltac:(intros N; apply Hid, Rn, N) T B) as (_ & _ & K & _).
    destruct (e_db (after_recording se)), (e_db (s_env se')); cbn in K; try contradiction; split; congruence.
  - destruct (body_unreadable _ _ _ _ _ _ _ _ _ _ ltac:(rewrite T; discriminate) B) as (_ & -> & _). tauto.
  - destruct (body_unreadable _ _ _ _ _ _ _ _ _ _ ltac:(rewrite T; discriminate) B) as (_ & -> & _). tauto.
Qed.
Lemma calculate_exhausted pr ord x input a h s se' r : calculate pr ord x input (mkSession a (Some h) s) = (se', r) ->
  exists h', s_inputs se' = Some h' /\ ih_exhausted h' = ih_exhausted h.
Proof.
  intros C. unfold calculate in C. cbn [s_inputs s_env s_args] in C.
  assert (Fin : forall h1 db1 o, input_finished h (e_db s) = (h1, db1, o) -> ih_exhausted h1 = ih_exhausted h).
  { intros h1 db1 o F. unfold input_finished in F. destruct (current_line h) as [t|e|p].
    - destruct (e_db s) as [sd|]; [destruct (add_to_input_history t sd) as [sd' [i|e|p]]|]; apply pair_equal_spec in F as [F _]; apply pair_equal_spec in F as [<- _]; reflexivity.
    - apply pair_equal_spec in F as [F _]; apply pair_equal_spec in F as [<- _]. auto.
    - apply pair_equal_spec in F as [F _]; apply pair_equal_spec in F as [<- _]. auto. }
  destruct (input_finished h (e_db s)) as [[h1 db1] o]. specialize (Fin _ _ _ eq_refl). exists h1. split; [|exact Fin].
  destruct o as [id|e|p]; [destruct (calculate_body _ _ _ _ _ _ _) as [[a1 s1] r1]| |]; apply pair_equal_spec in C as [<- _]; reflexivity.
Qed.
Lemma reply_steady pr ord x input u se' r : ui_steady u -> calculate pr ord x input (session_of u) = (se', r) ->
  (forall e, r <> Err (RuntimeError e)) /\ no_faults (s_env se').
Proof.
  intros ((A & B & R) & (C & _)) E.
  refine (calculate_calm _ _ _ _ (session_of u) _ _ A B R C _ E). cbn. discriminate.
Qed.
Lemma finish_line_steady pr ord x tm u : (forall n, iterates (ord n)) -> ui_steady u ->
  ui_steady (fst (fst (finish_line pr ord x tm u))) /\ harmless (snd (finish_line pr ord x tm u)).
Proof.
  intros Ho U. unfold finish_line. cbv zeta. destruct (display _ _ _ _ _) as [[l1 out1]|e|p] eqn:D.
  2:{ split; [exact U|]. apply harmless_display. eapply display_errors; eauto. }
  2:{ split; [exact U|intros e; discriminate]. }
  destruct (current_line (u_inputs u)) as [input|e|p] eqn:L; [|destruct (current_no_err _ _ L)|split; [exact U|intros e; discriminate]].
  change (mkSession (u_args u) (Some (u_inputs u)) (mkEnv (Some (u_vars u)) (u_db u))) with (session_of u).
  destruct (calculate pr (ord (u_count u)) x input (session_of u)) as [se' r] eqn:C.
  pose proof (reply_steady _ _ _ _ _ _ _ U C) as (Nr & Nf). destruct U as ((A & B & R) & (Cm & Ex)).
  destruct (calculate_valid _ _ _ _ (session_of u) _ _ A B (Ho _) C) as (A' & B' & V).
  pose proof (calculate_real _ _ _ _ (session_of u) _ _ A B R C) as R'.
  pose proof (calculate_db _ _ _ _ (session_of u) _ _ A B (Ho _) C) as Hdb.
  destruct (calculate_exhausted _ _ _ _ _ _ _ _ _ C) as (h' & Eh & Ee). rewrite Eh.
  destruct (e_vars (s_env se')) as [m'|] eqn:Em; [|exfalso; cbn in V; destruct V as [_ V]; discriminate (V eq_refl)].
  match goal with |- context [start_line pr tm ?u0] => assert (U' : ui_steady u0) end.
  { split.
    - split; [exact A'|]. assert (ui_env (mkUi (s_args se') m' (e_db (s_env se')) h' (u_line u) (S (u_count u))) = s_env se') as E.
      { unfold ui_env. cbn [u_vars u_db]. destruct (s_env se') as [v d]. cbn in *. congruence. }
      rewrite E. split; assumption.
    - split; [exact Nf|]. cbn [u_db u_inputs]. intros X. rewrite Ee. apply Ex. apply (proj2 Hdb X). }
  destruct (render r) as [text|e|p] eqn:Er.
  - match goal with |- context [start_line pr tm ?u0] => pose proof (start_line_steady pr tm u0 U') as SI; destruct (start_line pr tm u0) as [[u'' out3] st] end.
    exact SI.
  - exfalso. destruct r as [?|[?|?]|?]; discriminate Er.
  - split; [exact U'|intros e; discriminate].
Qed.
Lemma ui_step_steady pr ord x tm ev u : (forall n, iterates (ord n)) -> ui_steady u ->
  ui_steady (fst (fst (ui_step pr ord x tm ev u))) /\ harmless (snd (ui_step pr ord x tm ev u)).
Proof.
  intros Ho (G & S). unfold ui_step. pose proof (handle_event_file ev (u_line u) (u_inputs u) (u_db u)) as F.
  pose proof (handle_event_steady ev (u_line u) (u_inputs u) (u_db u) S) as K.
  destruct (handle_event ev (u_line u) (u_inputs u) (u_db u)) as [[[l' h'] db'] act]. destruct K as (S' & P).
  assert (U' : forall l0, ui_steady (mkUi (u_args u) (u_vars u) db' h' l0 (u_count u))) by (intros l0; split; [destruct u; eapply good_file; [exact F|exact G]|exact S']).
  destruct act; try (split; [apply U'|intros e0; discriminate]).
  - destruct (display _ _ _ _ _) as [[l'' out]|e|p] eqn:D; (split; [apply U'|]); try (intros e0; discriminate). apply harmless_display. eapply display_errors; eauto.
  - apply finish_line_steady; [exact Ho|apply U'].
  - split; [apply U'|]. intros e0 [= <-]. right. apply P. reflexivity.
Qed.
Lemma run_events_steady pr ord x tm evs : (forall n, iterates (ord n)) -> forall u, ui_steady u ->
  ui_steady (fst (fst (run_events pr ord x tm evs u))) /\ harmless (snd (run_events pr ord x tm evs u)).
Proof.
  intros Ho. induction evs as [|ev evs IH]; intros u G; [split; [exact G|intros e; discriminate]|]. cbn [run_events]. pose proof (ui_step_steady pr ord x tm ev u Ho G) as S.
  destruct (ui_step pr ord x tm ev u) as [[u' out] st]. destruct st; try exact S.
  specialize (IH u' (proj1 S)). destruct (run_events pr ord x tm evs u') as [[u'' out'] st']. exact IH.
Qed.
Lemma interactive_steady pr ord x tm a db evs : (forall n, iterates (ord n)) -> valid_settings a ->
  (forall sd, db = Some sd -> program_file (sd_db sd) /\ ~ In true (sd_faults sd)) ->
  ui_steady (fst (fst (interactive pr ord x tm a db evs))) /\ harmless (snd (interactive pr ord x tm a db evs)).
Proof.
  intros Ho Ha Hd. unfold interactive.
  assert (K : ui_steady (fst (fst (interactive_start pr tm a db))) /\ harmless (snd (interactive_start pr tm a db))).
  { apply start_line_steady. split.
    - split; [exact Ha|]. split; [split|].
      + intros m y v E. cbn in E. injection E as <-. discriminate.
      + intros sd E. apply file_rows, Hd, E.
      + intros sd E. apply Hd, E.
    - split; [intros sd E; apply (Hd sd E)|]. intros E. cbn [u_db] in E. rewrite E. reflexivity. }
  destruct (interactive_start pr tm a db) as [[u out] st]. destruct st; try exact K.
  pose proof (run_events_steady pr ord x tm evs Ho u (proj1 K)) as R. destruct (run_events pr ord x tm evs u) as [[u' out'] st']. exact R.
Qed.
