(** ProofsTerminal2.v -- lines without newlines stay so, and what the program writes in inline mode is neat. *)
From Verif Require Import Base Position Num TokenTypes Errors Token SavedData Variables InputHistory
  SyntaxTree Commands Calculate Editor Sessions SpecEval SpecHistory SpecEditor SpecCalc SpecSession SpecMain SpecTerminal.
From Verif Require Import ProofsEval ProofsDb2 ProofsDb3 ProofsEditor ProofsEditor2 ProofsEditor3 ProofsEditor4 ProofsCalc ProofsCalc3 ProofsCalc4 ProofsCalc6 ProofsCalc7 ProofsCalc8 ProofsCommands2
  ProofsSession ProofsKept ProofsTerminal.
From Coq Require Import String Lia.
Local Open Scope nat_scope.
Local Open Scope list_scope.

Definition no_newline (t : str) : Prop := ~ In c_newline t.
Definition clean_history (h : input_history) : Prop :=
  Forall no_newline (ih_internal h) /\ Forall no_newline (ih_db h) /\ forall t, In (Some t) (ih_current h) -> no_newline t.
Definition clean_file (d : database) : Prop := forall t, In t (texts_of d) -> no_newline t.
Definition clean_db (o : option saved_data) : Prop := forall sd, o = Some sd -> clean_file (sd_db sd).
Lemma nth_ok_in {E A} (l : list A) i a : @nth_ok E A l i = Ok a -> In a l.
Proof. unfold nth_ok. destruct (nth_error l i) as [b|] eqn:N; [|discriminate]. intros X. apply ok_inj in X as <-. eapply nth_error_In; exact N. Qed.
Lemma clean_current {E} h t : clean_history h -> @current_line E h = Ok t -> no_newline t.
Proof.
  intros (A & B & C). unfold current_line. destruct (nth_ok (ih_current h) (ih_index h)) as [[s|]|e|p] eqn:N; cbn [bind]; try discriminate.
  - intros X. apply ok_inj in X as <-. apply C. eapply nth_ok_in; exact N.
  - rewrite Forall_forall in A, B. destruct (Nat.leb _ _); intros X; apply nth_ok_in in X; auto.
Qed.
Lemma in_list_set {A} (l : list A) i a x : In x (list_set l i a) -> x = a \/ In x l.
Proof. revert i. induction l as [|y l IH]; intros i; [intros []|]. destruct i; cbn; intros [X|X]; auto. destruct (IH _ X); auto. Qed.
Lemma clean_edit {E} f h h' : clean_history h -> (forall s s', no_newline s -> f s = Ok s' -> no_newline s') -> @edit_current E f h = Ok h' -> clean_history h'.
Proof.
  intros C F X. unfold edit_current in X. destruct (ensure_populated h) as [h1|e|p] eqn:P; cbn [bind] in X; try discriminate X.
  assert (C1 : clean_history h1).
  { unfold ensure_populated in P. destruct (nth_ok _ _) as [[s|]|e|p]; cbn [bind] in P; try discriminate P; [apply ok_inj in P as <-; exact C|].
    destruct (current_line h) as [line|e|p] eqn:L; cbn [bind] in P; try discriminate P. apply ok_inj in P as <-. pose proof (clean_current _ _ C L) as Hl. destruct C as (A & B & C).
    split; [exact A|]. split; [exact B|]. cbn [ih_current]. intros t T. apply in_list_set in T as [T|T]; [injection T as ->; exact Hl|auto]. }
  destruct (nth_ok (ih_current h1) (ih_index h1)) as [[s|]|e|p] eqn:N; cbn [bind] in X; try discriminate X.
  destruct (f s) as [s'|e|p] eqn:Fs; cbn [bind] in X; try discriminate X. apply ok_inj in X as <-. destruct C1 as (A & B & C1).
  split; [exact A|]. split; [exact B|]. cbn [ih_current]. intros t T. apply in_list_set in T as [T|T]; [injection T as ->|auto].
  eapply F; [|exact Fs]. apply C1. eapply nth_ok_in; exact N.
Qed.
Lemma clean_insert {E} h i c h' : clean_history h -> c <> c_newline -> @insert_char E h i c = Ok h' -> clean_history h'.
Proof.
  intros C Hc. unfold insert_char. apply clean_edit; [exact C|]. intros s s' Hs. unfold string_insert. destruct (Nat.leb _ _); [|discriminate]. intros X. apply ok_inj in X as <-.
  unfold no_newline. rewrite in_app_iff. intros [X|[X|X]]; [apply Hs; eapply in_firstn'; exact X|exact (Hc X)|apply Hs; eapply in_skipn'; exact X].
Qed.
Lemma clean_remove {E} h i h' : clean_history h -> @remove_char E h i = Ok h' -> clean_history h'.
Proof.
  intros C. unfold remove_char. apply clean_edit; [exact C|]. intros s s' Hs. unfold string_remove. destruct (Nat.ltb _ _); [|discriminate]. intros X. apply ok_inj in X as <-.
  unfold no_newline. rewrite in_app_iff. intros [X|X]; [apply Hs; eapply in_firstn'; exact X|apply Hs; eapply in_skipn'; exact X].
Qed.
Lemma clean_go h : clean_history h -> clean_history (go_earlier h).
Proof.
  intros (A & B & C). split; [exact A|]. split; [exact B|]. cbn [go_earlier ih_current]. destruct (Nat.leb _ _); [|exact C].
  intros t T. apply in_app_iff in T as [T|[T|[]]]; [auto|discriminate T].
Qed.
Lemma get_prev_text sd sd' t : get_prev_input_history sd = (sd', Ok (Some t)) -> In t (texts_of (sd_db sd)).
Proof.
  unfold get_prev_input_history. destruct (sd_pos sd) as [id|]; [|intros E; apply pair_equal_spec in E as [_ E]; discriminate E].
  destruct (sd_call _ sd) as [sd1 o1] eqn:C. destruct (sd_call_cases _ _ _ _ C) as (_ & _ & D).
  destruct o1 as [[r|]|e|p]; try (intros E; apply pair_equal_spec in E as [_ E]; discriminate E).
  intros E. apply pair_equal_spec in E as [_ E]. apply ok_inj in E. injection E as <-.
  destruct D as [(u & D1 & M)|[(_ & D)|(_ & D)]].
  - apply ok_inj in D1. subst u. cbv beta in M. apply ok_inj, pair_equal_spec in M as [M _]. apply find_hist_in in M as [M _].
    unfold texts_of, inputs_of. rewrite map_map. cbn [snd]. apply in_map. exact M.
  - destruct D as [e D]. congruence.
  - destruct D as (p & D & _). congruence.
Qed.
Lemma clean_earlier h db h' db' r : clean_history h -> clean_db db -> try_earlier h db = (h', db', r) -> clean_history h'.
Proof.
  intros C D. unfold try_earlier. destruct (Nat.leb _ _); [|intros E; apply pair_equal_spec in E as [E _]; apply pair_equal_spec in E as [<- _]; apply clean_go; exact C].
  destruct (ih_exhausted h); [intros E; apply pair_equal_spec in E as [E _]; apply pair_equal_spec in E as [<- _]; exact C|].
  destruct db as [sd|]; [|intros E; apply pair_equal_spec in E as [E _]; apply pair_equal_spec in E as [<- _]; exact C].
  destruct (get_prev_input_history sd) as [sd' [[t|]|e|p]] eqn:G; intros E; apply pair_equal_spec in E as [E _]; apply pair_equal_spec in E as [<- _]; try exact C.
  apply clean_go. destruct C as (A & B & C). split; [exact A|]. split; [|exact C]. cbn [ih_db]. apply Forall_app. split; [exact B|]. constructor; [|constructor].
  apply (D sd eq_refl). eapply get_prev_text; exact G.
Qed.
Definition cleaned (r : ev_result) : Prop := let '(_, h', _, _) := r in clean_history h'.
Lemma upper_newline c : c <> c_newline -> to_ascii_uppercase c <> c_newline.
Proof. unfold to_ascii_uppercase. destruct (_ && _) eqn:E; [|auto]. apply andb_prop in E as [E _]. apply N.leb_le in E. unfold c_newline. lia. Qed.
Lemma handle_event_clean ev l h db : ~ newline_key ev -> clean_history h -> clean_db db -> cleaned (handle_event ev l h db).
Proof.
  intros Hn C D.
  assert (Ed : forall (r : outcome runtime_error input_history) l' a, (forall h', r = Ok h' -> clean_history h') -> cleaned (or_stop r l h db (fun h' => (l', h', db, a)))).
  { intros r l' a K. destruct r as [h'|e|p]; cbn; [apply K; reflexivity|exact C|exact C]. }
  assert (Cu : forall k, (forall t, cleaned (k t)) -> cleaned (or_stop (@current_line runtime_error h) l h db k)).
  { intros k K. destruct (@current_line runtime_error h) as [t|e|p]; cbn; [apply K|exact C|exact C]. }
  destruct ev as [code mods| |width|]; try exact C. cbn [handle_event]. destruct code as [c| | | | | | | | | |]; try exact C.
  - assert (Hc : c <> c_newline) by (intros ->; apply Hn; exists mods; reflexivity).
    unfold handle_char. destruct (negb (is_ascii c)); [exact C|].
    destruct (N.eqb mods CONTROL && (N.eqb c 100 || N.eqb c 122 || N.eqb c 99)); [exact C|].
    destruct (N.eqb mods CONTROL && (N.eqb c 109 || N.eqb c 110)).
    { apply Cu. intros t. destruct (paren_jump t (l_cursor l)) as [[q|]|e|p]; exact C. }
    destruct (N.eqb mods SHIFT); [apply Ed; intros h' H; eapply clean_insert; [exact C|apply upper_newline; exact Hc|exact H]|].
    destruct (negb (N.eqb mods 0)); [exact C|apply Ed; intros h' H; eapply clean_insert; eauto].
  - destruct (Nat.eqb_spec (l_cursor l) 0); [exact C|]. apply Ed; intros h' H; eapply clean_remove; eauto.
  - apply Cu. intros t. destruct (Nat.leb_spec (List.length t) (l_cursor l)); [exact C|]. apply Ed; intros h' H'; eapply clean_remove; eauto.
  - destruct (try_earlier h db) as [[h' db'] r] eqn:E. pose proof (clean_earlier _ _ _ _ _ C D E) as H'.
    destruct r as [[|]|e|p]; try exact H'. destruct (current_line h') as [?|?|?]; exact H'.
  - destruct (try_later h) as [h' b] eqn:E. assert (H' : clean_history h').
    { unfold try_later in E. destruct (ih_index h); apply pair_equal_spec in E as [<- _]; exact C. }
    destruct b; try exact H'. destruct (current_line h') as [?|?|?]; exact H'.
  - destruct (move_distance mods); exact C.
  - destruct (move_distance mods); [|exact C]. apply Cu. intros t. exact C.
  - apply Cu. intros t. exact C.
Qed.

(** ** Lines in inline mode write neatly *)
Lemma in_part (t : str) n m : no_newline t -> ~ In c_newline (firstn n (skipn m t)).
Proof. intros H X. apply H. apply in_firstn' in X. apply in_skipn' in X. exact X. Qed.
Lemma display_neat pr w l h l' out t : 6 <= w -> fits_u16 w -> l_cols l = w -> clean_history h -> shown h = Ok t -> l_cursor l <= List.length t ->
  display pr false false l h = Ok (l', out) -> neat w out /\ l_cols l' = w.
Proof.
  intros H6 Hu Ew C T Hc D. unfold display in D. unfold shown in T. rewrite T in D. cbn [bind orb] in D.
  destruct (scrolling_ok pr (l_cols l) (l_cursor l) (l_scroll l) t ltac:(lia) ltac:(rewrite Ew; exact Hu) Hc) as (off & opener & part & closer & E & P1 & P2 & P3 & P4 & P5 & P6).
  rewrite E in D. cbn [bind] in D. apply ok_pair in D as [<- <-]. split; [|exact Ew]. rewrite Ew in *. specialize (P3 H6).
  assert (N1 : ~ In c_newline opener) by (rewrite P5; destruct (Nat.eqb off 0); intros [X|[X|[]]]; discriminate X).
  assert (N2 : ~ In c_newline part) by (rewrite P1; apply in_part; exact (clean_current _ _ C T)).
  assert (N3 : ~ In c_newline closer) by (rewrite P6; destruct (Nat.ltb _ _); [intros [X|[X|[]]]; discriminate X|intros []]).
  change [MoveToColumn 0; ClearCurrentLine; Print opener; Print part; Print closer; MoveToColumn (2 + (l_cursor l - off))] with
    ([MoveToColumn 0; ClearCurrentLine] ++ [Print opener; Print part; Print closer] ++ [MoveToColumn (2 + (l_cursor l - off))]).
  apply (nt_text w _ [] (opener ++ part ++ closer)).
  - repeat (apply td_print; [assumption|]). apply td_nil.
  - cbn [fold_left print_to]. rewrite !print_not_newline by assumption. cbn [add_text app]. rewrite <- app_assoc. reflexivity.
  - rewrite !app_length, P1, firstn_length. assert (List.length opener = 2) by (rewrite P5; destruct (Nat.eqb off 0); reflexivity).
    assert (List.length closer <= 2) by (rewrite P6; destruct (Nat.ltb _ _); cbn; lia). lia.
  - apply nt_move; [lia|apply nt_nil].
Qed.
Lemma output_tidy text : tidy (print_output false text).
Proof.
  unfold print_output. destruct (split_lines_spec text [] (fun x => x)) as (_ & B & _). induction (split_lines text []) as [|r rows IH]; [constructor|].
  apply Forall_cons_iff in B as [Hr B]. cbn [flat_map app]. apply td_print; [exact Hr|]. apply td_newline. apply IH. exact B.
Qed.
(** rows printed by commands that end with a new row *)
Lemma print_to_some cmds : forall rows, rows <> [] -> exists rs, fold_left print_to (cmds ++ [Print [c_newline]; MoveToColumn 0]) rows = rs ++ [[]].
Proof.
  intros rows Hn. rewrite fold_left_app. exists (fold_left print_to cmds rows). cbn [fold_left print_to]. change (str_eqb [c_newline] [c_newline]) with true. reflexivity.
Qed.
Definition ends_row (cmds : list tcmd) : Prop := exists front, cmds = front ++ [Print [c_newline]; MoveToColumn 0].
Lemma neat_block w text cmds : tidy text -> ends_row text -> neat w cmds -> neat w ([MoveToColumn 0; ClearCurrentLine] ++ text ++ cmds).
Proof.
  intros T (front & E) N. destruct (print_to_some front [[]]) as (rs & Er); [discriminate|]. apply (nt_text w text rs []); [exact T| |cbn; lia|exact N]. rewrite E. exact Er.
Qed.
Lemma output_ends text : ends_row (print_output false text).
Proof.
  unfold print_output. destruct (split_lines_spec text [] (fun x => x)) as (A & _). destruct (exists_last A) as (rows & r & ->).
  exists (flat_map (fun line => Print line :: [Print [c_newline]; MoveToColumn 0]) rows ++ [Print r]). rewrite flat_map_app. cbn [flat_map app]. rewrite <- app_assoc. reflexivity.
Qed.
Lemma wrapped_ends pr cols cursor start line out : no_newline line -> display_wrapped pr false true cols cursor start line = Ok out ->
  exists text, out = [MoveToColumn 0; ClearCurrentLine] ++ text /\ tidy text /\ ends_row text.
Proof.
  intros Hn D. assert (D' := D). destruct (wrapped_tidy _ _ _ _ _ _ Hn D) as (text & E & T). exists text. split; [exact E|]. split; [exact T|].
  unfold display_wrapped in D'. cbv zeta in D'.
  destruct (Nat.ltb _ _); [discriminate D'|]. destruct (Nat.eqb _ 0); [discriminate D'|].
  destruct (u16_try_from (Nat.div _ _)) as [q|e|p]; cbn [bind] in D'; try discriminate D'.
  destruct (u16_add pr q _) as [q1|e|p]; cbn [bind] in D'; try discriminate D'.
  destruct (u16_try_from (_ + _)) as [q2|e|p]; cbn [bind] in D'; try discriminate D'.
  destruct (slice line 0 _) as [s|e|p]; cbn [bind] in D'; try discriminate D'.
  destruct (wrap_rest _ _ _ _ _ _) as [ws|e|p]; cbn [bind] in D'; try discriminate D'. apply ok_inj in D'. rewrite E in D'. cbn [app] in D'.
  apply (f_equal (skipn 2)) in D'. cbn [skipn] in D'. exists (Print PROMPT_STR :: Print s :: ws). rewrite <- D'. reflexivity.
Qed.

(** A session in inline mode of fixed width, no newline anywhere. *)
Record inlined (w : nat) (u : ui) : Prop := mkInlined
  { in_mode : a_alternate_screen (u_args u) = false; in_cols : l_cols (u_line u) = w;
    in_clean : clean_history (u_inputs u); in_db : clean_db (u_db u); in_good : ui_good u; in_ok : ui_ok u }.
Lemma handle_event_cols ev l h db : ~ resizes ev -> let '(l', _, _, _) := handle_event ev l h db in l_cols l' = l_cols l.
Proof.
  intros Hr. set (kept := fun r : ev_result => let '(l', _, _, _) := r in l_cols l' = l_cols l). change (kept (handle_event ev l h db)).
  assert (Ed : forall A (r : outcome runtime_error A) h0 db0 (k : A -> ev_result), (forall a, kept (k a)) -> kept (or_stop r l h0 db0 k)).
  { intros A r h0 db0 k K. destruct r as [a|e|p]; cbn; [apply K|reflexivity|reflexivity]. }
  destruct ev as [code mods| |width|]; try reflexivity; [|destruct Hr; exists width; reflexivity].
  cbn [handle_event]. destruct code as [c| | | | | | | | | |]; try reflexivity.
  - unfold handle_char. destruct (negb (is_ascii c)); [reflexivity|].
    destruct (N.eqb mods CONTROL && (N.eqb c 100 || N.eqb c 122 || N.eqb c 99)); [reflexivity|].
    destruct (N.eqb mods CONTROL && (N.eqb c 109 || N.eqb c 110)).
    { apply Ed. intros t. apply Ed. intros [q|]; reflexivity. }
    destruct (N.eqb mods SHIFT); [apply Ed; intros; reflexivity|]. destruct (negb (N.eqb mods 0)); [reflexivity|apply Ed; intros; reflexivity].
  - destruct (Nat.eqb (l_cursor l) 0); [reflexivity|]. apply Ed; intros; reflexivity.
  - apply Ed. intros t. destruct (Nat.leb _ _); [reflexivity|]. apply Ed; intros; reflexivity.
  - destruct (try_earlier h db) as [[h' db'] r]. destruct r as [[|]|e|p]; try reflexivity. apply Ed; intros; reflexivity.
  - destruct (try_later h) as [h' b]. destruct b; try reflexivity. apply Ed; intros; reflexivity.
  - destruct (move_distance mods); reflexivity.
  - destruct (move_distance mods); [|reflexivity]. apply Ed; intros; reflexivity.
  - apply Ed; intros; reflexivity.
Qed.
Lemma start_line_inlined pr tm w u : 6 <= w -> fits_u16 w -> snd (tm (u_count u)) = w -> a_alternate_screen (u_args u) = false ->
  clean_history (u_inputs u) -> clean_db (u_db u) -> ui_good u -> ih_ok (u_inputs u) ->
  neat w (snd (fst (start_line pr tm u))) /\ inlined w (fst (fst (start_line pr tm u))).
Proof.
  intros H6 Hu Ew Al C D G I. pose proof (start_line_good pr tm u G) as G'. pose proof (start_line_ok pr tm u I) as I'.
  destruct (shown_sheet _ I) as (t & Et & _). unfold start_line in *. cbv zeta in *. rewrite Al in *. set (l := mkLine 0 0 (fst (tm (u_count u))) (snd (tm (u_count u)))) in *.
  destruct (display pr false false l (u_inputs u)) as [[l' out]|e|p] eqn:Di; cbn [fst snd] in *.
  - destruct (display_neat pr w l (u_inputs u) l' out t H6 Hu Ew C Et (Nat.le_0_l _) Di) as [N El]. split; [exact N|]. constructor; assumption.
  - split; [constructor|]. constructor; assumption.
  - split; [constructor|]. constructor; assumption.
Qed.
Lemma finish_line_inlined pr ord tm w u : (forall n, iterates (ord n)) -> 6 <= w -> fits_u16 w -> (forall n, snd (tm n) = w) -> inlined w u ->
  neat w (snd (fst (finish_line pr ord the_executor tm u))) /\
  (snd (finish_line pr ord the_executor tm u) = Waiting -> inlined w (fst (fst (finish_line pr ord the_executor tm u)))).
Proof.
  intros Ho H6 Hu Ew [Al Ec C D G (I & In)]. destruct In as (t & Et & Hc). unfold finish_line. cbv zeta. rewrite Al. unfold display. unfold shown in Et. rewrite Et. cbn [bind orb].
  destruct (display_wrapped pr false true _ _ _ t) as [out1|e|p] eqn:Dw; cbn [bind fst snd]; [|split; [constructor|discriminate]..].
  pose proof (clean_current _ _ C Et) as Ht. destruct (wrapped_ends _ _ _ _ _ _ Ht Dw) as (text1 & -> & T1 & E1).
  change (mkSession (u_args u) (Some (u_inputs u)) (mkEnv (Some (u_vars u)) (u_db u))) with (session_of u).
  destruct (calculate pr (ord (u_count u)) the_executor t (session_of u)) as [se' r] eqn:Ca. destruct G as (A & B & R).
  assert (Only : neat w ([MoveToColumn 0; ClearCurrentLine] ++ text1)) by (rewrite <- (app_nil_r text1); apply neat_block; [exact T1|exact E1|constructor]).
  destruct (render r) as [text|e|p] eqn:Rn; cbn [fst snd]; [|split; [exact Only|discriminate]..].
  destruct (calculate_valid _ _ _ _ (session_of u) _ _ A B (Ho _) Ca) as (A' & B' & V).
  pose proof (calculate_real _ _ _ _ (session_of u) _ _ A B R Ca) as R'.
  destruct (e_vars (s_env se')) as [m'|] eqn:Em; [|exfalso; cbn in V; destruct V as [_ V]; discriminate (V eq_refl)].
  pose proof (line_screen _ _ _ (session_of u) _ _ Ca) as Al'. cbn [session_of s_args] in Al'. rewrite Al in Al'.
  pose proof (calculate_fresh _ _ _ _ _ _ _ _ _ _ Et Ca) as Fr. rewrite Fr.
  match goal with |- context [start_line pr tm ?u0] => destruct (start_line_inlined pr tm w u0 H6 Hu (Ew _)) as [N3 I3]; [..|destruct (start_line pr tm u0) as [[u'' out3] st]] end.
  - exact Al'.
  - cbn [u_inputs]. destruct C as (C1 & C2 & C3). split; [cbn; apply Forall_app; split; [exact C1|constructor; [exact Ht|constructor]]|]. split; [exact C2|]. cbn. intros s [X|[]]. injection X as <-. intros [].
  - cbn [u_db].
    assert (K : k_real (fun d => program_file d /\ clean_file d) (e_db (s_env se'))).
    { apply (calculate_kept (fun d => program_file d /\ clean_file d) no_newline) with (pr := pr) (ord := ord (u_count u)) (x := the_executor) (input := t) (se := session_of u) (r := r); [|exact A|exact B| | |exact Ca].
      - intros c d r0 d' (Hp & Hcl) Hq Had Hno Hnp Htx. split; [eapply file_call; eauto|]. intros s Hs. destruct (call_texts _ _ _ _ Hp Hq Hno Hnp Htx s Hs) as [X| ->]; [apply Hcl; exact X|]. apply Had. reflexivity.
      - intros h line Eh El. cbn in Eh. injection Eh as <-. eapply clean_current; eauto.
      - intros sd Esd. cbn in Esd. split; [apply R; exact Esd|apply D; exact Esd]. }
    intros sd Esd. apply K. exact Esd.
  - split; [exact A'|]. cbn [u_args]. assert (ui_env (mkUi (s_args se') m' (e_db (s_env se')) (mkIH (ih_internal (u_inputs u) ++ [t]) (ih_db (u_inputs u)) [Some []] 0 (ih_exhausted (u_inputs u))) (u_line u) (S (u_count u))) = s_env se') as Ee.
    { unfold ui_env. cbn [u_vars u_db]. destruct (s_env se') as [v d]. cbn in *. congruence. }
    rewrite Ee. split; assumption.
  - cbn [u_inputs]. destruct (calculate_inputs pr (ord (u_count u)) the_executor t (u_args u) (u_inputs u) (mkEnv (Some (u_vars u)) (u_db u)) I) as (h' & Eh & Hok').
    change (mkSession (u_args u) (Some (u_inputs u)) (mkEnv (Some (u_vars u)) (u_db u))) with (session_of u) in Eh. rewrite Ca in Eh. cbn [fst] in Eh. rewrite Fr in Eh. injection Eh as <-. exact Hok'.
  - cbn [fst snd] in *. split; [|intros _; exact I3]. rewrite <- app_assoc, (app_assoc text1). apply neat_block; [apply tidy_app; [exact T1|apply output_tidy]| |exact N3].
    destruct (output_ends text) as (f & Ef). exists (text1 ++ f). rewrite Ef, app_assoc. reflexivity.
Qed.
Lemma ui_step_inlined pr ord tm w ev u : (forall n, iterates (ord n)) -> 6 <= w -> fits_u16 w -> (forall n, snd (tm n) = w) -> ~ resizes ev -> ~ newline_key ev -> inlined w u ->
  neat w (snd (fst (ui_step pr ord the_executor tm ev u))) /\
  (snd (ui_step pr ord the_executor tm ev u) = Waiting -> inlined w (fst (fst (ui_step pr ord the_executor tm ev u)))).
Proof.
  intros Ho H6 Hu Ew Hr Hk [Al Ec C D G (I & In)]. unfold ui_step.
  pose proof (handle_event_file ev (u_line u) (u_inputs u) (u_db u)) as F. pose proof (handle_event_cols ev (u_line u) (u_inputs u) (u_db u) Hr) as Co.
  pose proof (handle_event_clean ev (u_line u) (u_inputs u) (u_db u) Hk C D) as Cl. pose proof (handle_event_good ev (u_line u) (u_inputs u) (u_db u) I In) as Gd.
  destruct (handle_event ev (u_line u) (u_inputs u) (u_db u)) as [[[l' h'] db'] act]. cbn [cleaned good_result] in *. destruct Gd as (I' & In' & _).
  assert (D' : clean_db db').
  { intros sd' ->. destruct (u_db u) as [sd|] eqn:Eu; [|destruct F]. cbn in F. rewrite F. apply D. reflexivity. }
  assert (G' : forall l0, ui_good (mkUi (u_args u) (u_vars u) db' h' l0 (u_count u))) by (intros l0; destruct u; eapply good_file; [exact F|exact G]).
  assert (U' : inlined w (mkUi (u_args u) (u_vars u) db' h' l' (u_count u))) by (constructor; [exact Al|cbn; congruence|exact Cl|exact D'|apply G'|split; assumption]).
  destruct act; cbn [fst snd].
  - split; [constructor|]. auto.
  - rewrite Al. destruct (display pr false false l' h') as [[l'' out]|e|p] eqn:Di; cbn [fst snd]; [|split; [constructor|discriminate]..].
    destruct In' as (t & Et & Hc). destruct (display_neat pr w l' h' l'' out t H6 Hu ltac:(congruence) Cl Et Hc Di) as [N El]. split; [exact N|]. intros _.
    constructor; [exact Al|exact El|exact Cl|exact D'|apply G'|]. split; [exact I'|]. cbn [u_inputs u_line]. rewrite (display_cursor _ _ _ _ _ _ _ Di). exists t. auto.
  - apply finish_line_inlined; assumption.
  - rewrite Al. split; [apply nt_feed, nt_nil|discriminate].
  - split; [constructor|discriminate].
  - split; [constructor|discriminate].
Qed.
Lemma run_events_inlined pr ord tm w evs : (forall n, iterates (ord n)) -> 6 <= w -> fits_u16 w -> (forall n, snd (tm n) = w) -> undisturbed evs ->
  forall u, inlined w u -> neat w (snd (fst (run_events pr ord the_executor tm evs u))).
Proof.
  intros Ho H6 Hu Ew. induction evs as [|ev evs IH]; intros Hev u U; [constructor|]. apply Forall_cons_iff in Hev as [[Hr Hk] Hev]. cbn [run_events].
  destruct (ui_step_inlined pr ord tm w ev u Ho H6 Hu Ew Hr Hk U) as [N K]. destruct (ui_step pr ord the_executor tm ev u) as [[u1 out1] st1]. cbn [fst snd] in *.
  destruct st1; try exact N. specialize (IH Hev u1 (K eq_refl)). destruct (run_events pr ord the_executor tm evs u1) as [[u2 out2] st2]. cbn [fst snd] in *. apply neat_app; assumption.
Qed.
Lemma interactive_neat pr ord tm w a db evs : (forall n, iterates (ord n)) -> valid_settings a -> a_alternate_screen a = false ->
  (forall sd, db = Some sd -> program_file (sd_db sd) /\ clean_file (sd_db sd)) -> 6 <= w -> fits_u16 w -> (forall n, snd (tm n) = w) -> undisturbed evs ->
  neat w (snd (fst (interactive pr ord the_executor tm a db evs))).
Proof.
  intros Ho Ha Al Hd H6 Hu Ew Hev. unfold interactive, interactive_start.
  match goal with |- context [start_line pr tm ?u0] => destruct (start_line_inlined pr tm w u0 H6 Hu (Ew _)) as [N U]; [..|destruct (start_line pr tm u0) as [[u out] st]] end.
  - exact Al.
  - split; [constructor|]. split; [constructor|]. cbn. intros t [X|[]]. injection X as <-. intros [].
  - intros sd E. apply Hd. exact E.
  - split; [exact Ha|]. split; [split|].
    + intros m y v E. cbn in E. injection E as <-. discriminate.
    + intros sd E. apply file_rows, Hd, E.
    + intros sd E. apply Hd, E.
  - apply ih_new_ok.
  - cbn [fst snd] in *. destruct st; try exact N. pose proof (run_events_inlined pr ord tm w evs Ho H6 Hu Ew Hev u U) as R.
    destruct (run_events pr ord the_executor tm evs u) as [[u2 out2] st2]. cbn [fst snd] in *. apply neat_app; assumption.
Qed.
(** Any session in inline mode: the terminal shows the screen, folded. *)
Lemma interactive_pictured pr ord tm w before g a db evs u out st : (forall n, iterates (ord n)) -> valid_settings a -> a_alternate_screen a = false ->
  (forall sd, db = Some sd -> program_file (sd_db sd) /\ clean_file (sd_db sd)) -> 6 <= w -> fits_u16 w -> tape g before [] -> g_width g = w -> g_col g = 0 ->
  (forall n, snd (tm n) = w) -> undisturbed evs ->
  interactive pr ord the_executor tm a db evs = (u, out, st) -> pictured before w (screen_after out blank) (grid_after out g).
Proof.
  intros Ho Ha Al Hd H6 Hu T Gw Gc Ew Hev E. apply neat_picture; [lia| |apply blank_pictured; assumption].
  pose proof (interactive_neat pr ord tm w a db evs Ho Ha Al Hd H6 Hu Ew Hev) as N. rewrite E in N. exact N.
Qed.
