(** ProofsEditor4.v -- keys and the interactive loop. *)
From Verif Require Import Base Position Num TokenTypes Errors Token Operations SavedData Variables InputHistory SyntaxTree Commands Calculate Editor SpecEditor ProofsEditor ProofsEditor2 ProofsEditor3.
From Coq Require Import String.
Local Open Scope nat_scope.
Local Open Scope list_scope.

Lemma edits_shown h h' t : ih_ok h -> ih_ok h' ->
  same_edits (mkSheet (rev (ih_internal h)) (ih_db h) (negb (ih_exhausted h)) (put_edit (edits_of h) (ih_index h) t) (ih_index h)) (sheet_of h') ->
  shown h' = Ok t /\ recorded h' = recorded h /\ ih_index h' = ih_index h.
Proof.
  intros Hok Hok' S. pose proof (same_edits_view _ _ S) as (A & B & _ & C & D). cbn [sh_session sh_disk sh_at] in *.
  assert (I' : ih_index h' = ih_index h) by (symmetry; exact C).
  destruct (shown_sheet h' Hok') as (t' & E & S'). rewrite I', <- D in S'.
  pose proof (put_edit_shown (sheet_of h) (negb (ih_exhausted h)) (ih_index h) t (ih_index h) (ih_index h)) as P.
  rewrite Nat.eqb_refl in P. assert (Some t = Some t') as [= <-] by (rewrite <- P; exact S').
  split; [exact E|]. split; [|exact I']. unfold recorded. change (rev (ih_internal h')) with (sh_session (sheet_of h')). rewrite <- A.
  change (ih_db h') with (sh_disk (sheet_of h')). rewrite <- B. reflexivity.
Qed.
Lemma insert_shown h i c t : ih_ok h -> shown h = Ok t -> i <= List.length t ->
  exists h', @insert_char runtime_error h i c = Ok h' /\ ih_ok h' /\ shown h' = Ok (firstn i t ++ c :: skipn i t) /\
    recorded h' = recorded h /\ ih_index h' = ih_index h.
Proof.
  intros Hok Ht Hi. destruct (shown_sheet h Hok) as (t' & E & S). assert (t' = t) by congruence. subst t'.
  destruct (@insert_spec runtime_error h i c t Hok S Hi) as (h' & E' & Hok' & SE & _). exists h'. split; [exact E'|]. split; [exact Hok'|].
  apply edits_shown; assumption.
Qed.
Lemma remove_shown h i t : ih_ok h -> shown h = Ok t -> i < List.length t ->
  exists h', @remove_char runtime_error h i = Ok h' /\ ih_ok h' /\ shown h' = Ok (firstn i t ++ skipn (S i) t) /\
    recorded h' = recorded h /\ ih_index h' = ih_index h.
Proof.
  intros Hok Ht Hi. destruct (shown_sheet h Hok) as (t' & E & S). assert (t' = t) by congruence. subst t'.
  destruct (@remove_spec runtime_error h i t Hok S Hi) as (h' & E' & Hok' & SE & _). exists h'. split; [exact E'|]. split; [exact Hok'|].
  apply edits_shown; assumption.
Qed.

(** ** The cursor stays inside *)
Definition inside (h : input_history) (c : nat) : Prop := exists t, shown h = Ok t /\ c <= List.length t.
Definition good_result (r : ev_result) : Prop :=
  let '(l', h', _, act) := r in ih_ok h' /\ inside h' (l_cursor l') /\ forall p, act <> APanic p.
Lemma inside_len h t : shown h = Ok t -> inside h (List.length t).
Proof. intros H. exists t. auto. Qed.

Lemma handle_char_good c mods l h db : ih_ok h -> inside h (l_cursor l) -> good_result (handle_char c mods l h db).
Proof.
  intros Hok (t & Ht & Hc). assert (Hin : inside h (l_cursor l)) by (exists t; auto). unfold handle_char.
  assert (Ins : forall c', good_result (or_stop (insert_char h (l_cursor l) c') l h db (fun h' => (with_cursor l (l_cursor l + 1), h', db, ARedraw)))).
  { intros c'. destruct (insert_shown h (l_cursor l) c' t Hok Ht Hc) as (h' & E & Hok' & S' & _). rewrite E. cbn [or_stop good_result].
    split; [exact Hok'|]. split; [|discriminate]. eexists. split; [exact S'|]. cbn [l_cursor with_cursor]. rewrite app_length, firstn_length. cbn [List.length]. rewrite skipn_length. lia. }
  destruct (negb (is_ascii c)); [split; [exact Hok|split; [exact Hin|discriminate]]|].
  destruct (N.eqb mods CONTROL && (N.eqb c 100 || N.eqb c 122 || N.eqb c 99)); [split; [exact Hok|split; [exact Hin|discriminate]]|].
  destruct (N.eqb mods CONTROL && (N.eqb c 109 || N.eqb c 110)).
  { fold (shown h). rewrite Ht. cbn [or_stop]. destruct (paren_jump_partner t (l_cursor l)) as (r & Er & R). rewrite Er. cbn [or_stop].
    destruct r as [q|]; cbn [good_result]; (split; [exact Hok|split; [|discriminate]]); [|exact Hin].
    pose proof (proj1 (R q) eq_refl) as P. apply partners_in in P as [_ P]. exists t. cbn [l_cursor with_cursor]. split; [exact Ht|lia]. }
  destruct (N.eqb mods SHIFT); [apply Ins|]. destruct (negb (N.eqb mods 0)); [split; [exact Hok|split; [exact Hin|discriminate]]|apply Ins].
Qed.

Lemma try_earlier_good h db h' db' r : ih_ok h -> try_earlier h db = (h', db', r) -> ih_ok h' /\ (forall p, r <> Panic p) /\
  (r <> Ok true -> shown h' = shown h).
Proof.
  intros Hok E.
  assert (P : forall p, r <> Panic p).
  { intros p ->. unfold try_earlier in E. destruct (Nat.leb _ _); [|discriminate E]. destruct (ih_exhausted h); [discriminate E|].
    destruct db as [d|]; [|discriminate E]. destruct (get_prev_input_history d) as [d' [[x|]|e|q]] eqn:G; try discriminate E. exact (get_prev_no_panic _ _ _ G). }
  destruct (up_refines h db h' db' r Hok E P) as (Hok' & _). split; [exact Hok'|]. split; [exact P|].
  intros N. unfold try_earlier in E. destruct (Nat.leb _ _); [|apply pair_equal_spec in E as [_ <-]; congruence].
  destruct (ih_exhausted h); [apply pair_equal_spec in E as [E _]; apply pair_equal_spec in E as [<- _]; reflexivity|].
  destruct db as [d|]; [|apply pair_equal_spec in E as [E _]; apply pair_equal_spec in E as [<- _]; reflexivity].
  destruct (get_prev_input_history d) as [d' [[x|]|e|q]] eqn:G; apply pair_equal_spec in E as [E Er]; apply pair_equal_spec in E as [<- _]; try reflexivity.
  congruence.
Qed.

Lemma handle_event_good ev l h db : ih_ok h -> inside h (l_cursor l) -> good_result (handle_event ev l h db).
Proof.
  intros Hok Hin. assert (Hin' := Hin). destruct Hin' as (t & Ht & Hc).
  assert (Hcl : current_line (E := runtime_error) h = Ok t) by exact Ht.
  destruct ev as [code mods| |width|]; try (split; [exact Hok|split; [exact Hin|discriminate]]).
  cbn [handle_event]. destruct code as [c| | | | | | | | | |].
  - apply handle_char_good; assumption.
  - destruct (Nat.eqb_spec (l_cursor l) 0); [split; [exact Hok|split; [exact Hin|discriminate]]|].
    destruct (remove_shown h (l_cursor l - 1) t Hok Ht ltac:(lia)) as (h' & E & Hok' & S' & _). rewrite E. cbn [or_stop good_result].
    split; [exact Hok'|]. split; [|discriminate]. eexists. split; [exact S'|]. cbn [l_cursor with_cursor]. rewrite app_length, firstn_length, skipn_length. lia.
  - rewrite Hcl. cbn [or_stop]. destruct (Nat.leb_spec (List.length t) (l_cursor l)); [split; [exact Hok|split; [exact Hin|discriminate]]|].
    destruct (remove_shown h (l_cursor l) t Hok Ht ltac:(lia)) as (h' & E & Hok' & S' & _). rewrite E. cbn [or_stop good_result].
    split; [exact Hok'|]. split; [|discriminate]. eexists. split; [exact S'|]. rewrite app_length, firstn_length, skipn_length. lia.
  - destruct (try_earlier h db) as [[h' db'] r] eqn:E. destruct (try_earlier_good _ _ _ _ _ Hok E) as (Hok' & P & S).
    destruct r as [[|]|e|p]; [| | |destruct (P p eq_refl)].
    + destruct (shown_sheet h' Hok') as (t' & E' & _). fold (shown h'). rewrite E'. cbn [or_stop good_result].
      split; [exact Hok'|]. split; [|discriminate]. apply inside_len. exact E'.
    + split; [exact Hok'|]. split; [|discriminate]. exists t. rewrite S by discriminate. auto.
    + split; [exact Hok'|]. split; [|discriminate]. exists t. rewrite S by discriminate. auto.
  - destruct (try_later h) as [h' b] eqn:E. destruct (down_refines _ _ _ Hok E) as (Hok' & _). destruct b.
    + destruct (shown_sheet h' Hok') as (t' & E' & _). fold (shown h'). rewrite E'. cbn [or_stop good_result].
      split; [exact Hok'|]. split; [|discriminate]. apply inside_len. exact E'.
    + unfold try_later in E. destruct (ih_index h); [|discriminate E]. injection E as <-. split; [exact Hok|]. split; [exact Hin|discriminate].
  - destruct (move_distance mods) as [d|]; (split; [exact Hok|]; split; [|discriminate]); [|exact Hin].
    exists t. split; [exact Ht|]. cbn [l_cursor with_cursor]. destruct (Nat.leb (l_cursor l) d); lia.
  - destruct (move_distance mods) as [d|]; [|split; [exact Hok|split; [exact Hin|discriminate]]].
    rewrite Hcl. cbn [or_stop good_result]. split; [exact Hok|]. split; [|discriminate]. exists t. split; [exact Ht|]. cbn [l_cursor with_cursor].
    destruct (Nat.leb_spec (List.length t) d); cbn [orb]; [lia|]. destruct (Nat.leb_spec (List.length t - d) (l_cursor l)); lia.
  - split; [exact Hok|]. split; [|discriminate]. exists t. split; [exact Ht|]. cbn [l_cursor with_cursor]. lia.
  - rewrite Hcl. cbn [or_stop good_result]. split; [exact Hok|]. split; [|discriminate]. apply inside_len. exact Ht.
  - split; [exact Hok|split; [exact Hin|discriminate]].
  - split; [exact Hok|split; [exact Hin|discriminate]].
Qed.

(** ** The loop *)
Definition ui_ok (u : ui) : Prop := ih_ok (u_inputs u) /\ inside (u_inputs u) (l_cursor (u_line u)).
Lemma display_cursor pr alt c l h l' out : display pr alt c l h = Ok (l', out) -> l_cursor l' = l_cursor l.
Proof.
  unfold display. intros E. destruct (current_line h) as [line|e|p]; try discriminate E. cbn [bind] in E. destruct (alt || c).
  - destruct (display_wrapped _ _ _ _ _ _ _) as [o|e|p]; try discriminate E. cbn [bind] in E. apply ok_pair in E as [<- _]. reflexivity.
  - destruct (display_scrolling _ _ _ _ _) as [[o o2]|e|p]; try discriminate E. cbn [bind] in E. apply ok_pair in E as [<- _]. reflexivity.
Qed.
Lemma start_line_ok pr tm u : ih_ok (u_inputs u) -> ui_ok (fst (fst (start_line pr tm u))).
Proof.
  intros Hok. destruct (shown_sheet _ Hok) as (t & Et & _). unfold start_line.
  destruct (display pr (a_alternate_screen (u_args u)) false _ (u_inputs u)) as [[l' out]|e|p] eqn:E; cbn [fst]; (split; [exact Hok|]); exists t; (split; [exact Et|]).
  - cbn [u_line]. rewrite (display_cursor _ _ _ _ _ _ _ E). cbn [l_cursor]. lia.
  - cbn. lia.
  - cbn. lia.
Qed.
Lemma input_finished_ok h db h' db' r : ih_ok h -> input_finished h db = (h', db', r) -> ih_ok h' /\ forall p, r <> Panic p.
Proof.
  intros Hok E. destruct (shown_sheet h Hok) as (t & Et & St). destruct (finish_spec h db h' db' r t Hok St E) as (Hok' & _).
  split; [exact Hok'|]. intros p ->. unfold input_finished in E. fold (shown h) in E. rewrite Et in E. destruct db as [d|]; [|discriminate E].
  destruct (add_to_input_history t d) as [d' [id|e|q]] eqn:A; try discriminate E. exact (add_no_panic _ _ _ _ A).
Qed.
Lemma calculate_inputs pr ord x input a h s : ih_ok h ->
  exists h', s_inputs (fst (calculate pr ord x input (mkSession a (Some h) s))) = Some h' /\ ih_ok h'.
Proof.
  intros Hok. unfold calculate. cbn [s_inputs s_env s_args]. destruct (input_finished h (e_db s)) as [[h' db'] r] eqn:E.
  destruct (input_finished_ok _ _ _ _ _ Hok E) as (Hok' & _). exists h'. split; [|exact Hok'].
  destruct r as [id|e|p]; try reflexivity. destruct (calculate_body _ _ _ _ _ _ _) as [[a' s'] r']. reflexivity.
Qed.
Lemma finish_line_ok pr ord x tm u : ui_ok u -> ui_ok (fst (fst (finish_line pr ord x tm u))) \/ exists p, snd (finish_line pr ord x tm u) = Crashed p.
Proof.
  intros Hu. unfold finish_line. destruct (display _ _ _ _ _) as [[l1 out1]|e|p]; [|left; exact Hu|left; exact Hu].
  destruct (current_line (u_inputs u)) as [input|e|p]; [|left; exact Hu|left; exact Hu].
  destruct Hu as (Hok & _). destruct (calculate_inputs pr (ord (u_count u)) x input (u_args u) (u_inputs u) (mkEnv (Some (u_vars u)) (u_db u)) Hok) as (h' & Eh & Hok').
  destruct (calculate pr (ord (u_count u)) x input _) as [se' r]. cbn [fst] in Eh. rewrite Eh.
  destruct (render r) as [text|e|p] eqn:R.
  - destruct (start_line pr tm _) as [[u'' out3] st] eqn:S. left. cbn [fst].
    match type of S with start_line _ _ ?u0 = _ => pose proof (start_line_ok pr tm u0 Hok') as K end. rewrite S in K. exact K.
  - destruct r as [?|[?|?]|?]; discriminate R.
  - right. exists p. reflexivity.
Qed.
Lemma ui_step_ok pr ord x tm ev u : ui_ok u -> snd (ui_step pr ord x tm ev u) = Waiting -> ui_ok (fst (fst (ui_step pr ord x tm ev u))).
Proof.
  intros (Hok & Hin) W. pose proof (handle_event_good ev (u_line u) (u_inputs u) (u_db u) Hok Hin) as G. unfold ui_step in *.
  destruct (handle_event ev (u_line u) (u_inputs u) (u_db u)) as [[[l' h'] db'] act]. cbn [good_result] in G. destruct G as (Hok' & Hin' & _).
  destruct act; try discriminate W.
  - split; assumption.
  - destruct (display _ _ _ _ _) as [[l'' out]|e|p] eqn:D; try discriminate W. cbn [fst]. split; [exact Hok'|]. cbn [u_inputs u_line].
    rewrite (display_cursor _ _ _ _ _ _ _ D). exact Hin'.
  - match goal with |- ui_ok (fst (fst (finish_line _ _ _ _ ?u0))) => destruct (finish_line_ok pr ord x tm u0 (conj Hok' Hin')) as [K|[p K]] end; [exact K|congruence].
Qed.
Lemma run_events_ok pr ord x tm evs : forall u, ui_ok u -> snd (run_events pr ord x tm evs u) = Waiting -> ui_ok (fst (fst (run_events pr ord x tm evs u))).
Proof.
  induction evs as [|ev evs IH]; intros u Hu W; [exact Hu|]. cbn [run_events] in *. pose proof (ui_step_ok pr ord x tm ev u Hu) as S.
  destruct (ui_step pr ord x tm ev u) as [[u' out] st]. cbn [fst snd] in S. destruct st; try discriminate W.
  specialize (IH u' (S eq_refl)). destruct (run_events pr ord x tm evs u') as [[u'' out'] st']. cbn [fst snd] in *. apply IH. exact W.
Qed.
Lemma interactive_ok pr ord x tm a db evs : snd (interactive pr ord x tm a db evs) = Waiting -> ui_ok (fst (fst (interactive pr ord x tm a db evs))).
Proof.
  unfold interactive. intros W.
  assert (K : ui_ok (fst (fst (interactive_start pr tm a db)))) by (apply start_line_ok; apply ih_new_ok).
  destruct (interactive_start pr tm a db) as [[u out] st]. cbn [fst] in K. destruct st; try discriminate W.
  pose proof (run_events_ok pr ord x tm evs u K) as R. destruct (run_events pr ord x tm evs u) as [[u' out'] st']. cbn [fst snd] in *. apply R. exact W.
Qed.

(** ** Exits *)
Lemma finish_not_exit pr ord x tm u : snd (finish_line pr ord x tm u) <> Exited.
Proof.
  unfold finish_line. destruct (display _ _ _ _ _) as [[l1 out1]|e|p]; try discriminate.
  destruct (current_line (u_inputs u)) as [input|e|p]; try discriminate.
  destruct (calculate pr (ord (u_count u)) x input _) as [se' r]. destruct (render r) as [text|e|p]; try discriminate.
  unfold start_line. destruct (display pr _ false _ _) as [[l' out]|e|p]; discriminate.
Qed.
Lemma or_stop_exit {A} (r : outcome runtime_error A) l h db k : snd (or_stop r l h db k) = AExit -> exists a, r = Ok a /\ snd (k a) = AExit.
Proof. destruct r as [a|e|p]; cbn; try discriminate. eauto. Qed.
Lemma handle_event_exit ev l h db : snd (handle_event ev l h db) = AExit <-> exit_key ev.
Proof.
  split.
  - intros H. destruct ev as [code mods| |width|]; try discriminate H. cbn [handle_event] in H. destruct code as [c| | | | | | | | | |]; try discriminate H.
    + unfold handle_char in H. destruct (negb (is_ascii c)); [discriminate H|].
      destruct (N.eqb_spec mods CONTROL) as [->|]; cbn [andb] in H.
      * destruct (N.eqb_spec c 100) as [->|]; [left; reflexivity|]. destruct (N.eqb_spec c 122) as [->|]; [right; left; reflexivity|].
        destruct (N.eqb_spec c 99) as [->|]; [right; right; reflexivity|]. cbn [orb] in H.
        destruct (N.eqb c 109 || N.eqb c 110).
        { apply or_stop_exit in H as (line & _ & H). apply or_stop_exit in H as (tg & _ & H). destruct tg; discriminate H. }
        destruct (N.eqb CONTROL SHIFT); [apply or_stop_exit in H as (h' & _ & H); discriminate H|].
        destruct (negb (N.eqb CONTROL 0)); [discriminate H|]. apply or_stop_exit in H as (h' & _ & H); discriminate H.
      * destruct (N.eqb mods SHIFT); [apply or_stop_exit in H as (h' & _ & H); discriminate H|].
        destruct (negb (N.eqb mods 0)); [discriminate H|]. apply or_stop_exit in H as (h' & _ & H); discriminate H.
    + destruct (Nat.eqb _ 0); [discriminate H|]. apply or_stop_exit in H as (h' & _ & H); discriminate H.
    + apply or_stop_exit in H as (line & _ & H). destruct (Nat.leb _ _); [discriminate H|]. apply or_stop_exit in H as (h' & _ & H); discriminate H.
    + destruct (try_earlier h db) as [[h' db'] [[|]|e|p]]; try discriminate H. apply or_stop_exit in H as (line & _ & H). discriminate H.
    + destruct (try_later h) as [h' [|]]; try discriminate H. apply or_stop_exit in H as (line & _ & H). discriminate H.
    + destruct (move_distance mods); discriminate H.
    + destruct (move_distance mods); [|discriminate H]. apply or_stop_exit in H as (line & _ & H). discriminate H.
    + apply or_stop_exit in H as (line & _ & H). discriminate H.
  - intros [E|[E|E]]; rewrite E; reflexivity.
Qed.
Lemma ui_step_exit pr ord x tm ev u : snd (ui_step pr ord x tm ev u) = Exited <-> exit_key ev.
Proof.
  rewrite <- (handle_event_exit ev (u_line u) (u_inputs u) (u_db u)). unfold ui_step.
  destruct (handle_event ev (u_line u) (u_inputs u) (u_db u)) as [[[l' h'] db'] act]. cbn [snd].
  destruct act; cbn [snd]; try (split; discriminate).
  - destruct (display _ _ _ _ _) as [[l'' out]|e|p]; split; discriminate.
  - split; [|discriminate]. intros H. destruct (finish_not_exit _ _ _ _ _ H).
  - split; reflexivity.
Qed.
Lemma run_exit pr ord x tm evs : forall u, snd (run_events pr ord x tm evs u) = Exited ->
  exists before ev after, evs = before ++ ev :: after /\ exit_key ev /\ Forall (fun e => ~ exit_key e) before.
Proof.
  induction evs as [|ev evs IH]; intros u H; [discriminate H|]. cbn [run_events] in H.
  pose proof (ui_step_exit pr ord x tm ev u) as X. destruct (ui_step pr ord x tm ev u) as [[u' out] st]. cbn [snd] in X.
  destruct st; try discriminate H.
  - specialize (IH u'). destruct (run_events pr ord x tm evs u') as [[u'' out'] st']. cbn [snd] in *. destruct (IH H) as (b & e & c & -> & K & F).
    exists (ev :: b), e, c. split; [reflexivity|]. split; [exact K|]. constructor; [|exact F]. intros K'. apply X in K'. discriminate K'.
  - exists [], ev, evs. split; [reflexivity|]. split; [apply X; reflexivity|constructor].
Qed.
Lemma interactive_exit pr ord x tm a db evs : snd (interactive pr ord x tm a db evs) = Exited ->
  exists before ev after, evs = before ++ ev :: after /\ exit_key ev /\ Forall (fun e => ~ exit_key e) before.
Proof.
  unfold interactive. intros H. destruct (interactive_start pr tm a db) as [[u out] st] eqn:S. destruct st; try discriminate H.
  - pose proof (run_exit pr ord x tm evs u) as R. destruct (run_events pr ord x tm evs u) as [[u' out'] st']. cbn [snd] in *. exact (R H).
  - unfold interactive_start, start_line in S. destruct (display pr _ false _ _) as [[l' o]|e|p]; discriminate S.
Qed.

(** ** Every history the loop has is one of the scrollback's *)
Lemma hend_app acts act h : hend (acts ++ [act]) h = fst (hstep act (hend acts h)).
Proof. revert h. induction acts as [|x acts IH]; intros h; [reflexivity|]. cbn [app hend]. apply IH. Qed.
Lemma well_placed_app acts act h : well_placed acts h -> (forall line, shown (hend acts h) = Ok line -> in_line act line) -> well_placed (acts ++ [act]) h.
Proof.
  revert h. induction acts as [|x acts IH]; intros h Hw Hl; [split; [exact Hl|exact I]|]. destruct Hw as [H1 H2]. split; [exact H1|]. apply IH; assumption.
Qed.
Lemma history_step h act : history_of_session h -> (forall line, shown h = Ok line -> in_line act line) -> history_of_session (fst (hstep act h)).
Proof.
  intros (b & acts & Hw & ->) Hl. exists b, (acts ++ [act]). split; [apply well_placed_app; assumption|]. symmetry. apply hend_app.
Qed.
Lemma history_new b : history_of_session (ih_new b).
Proof. exists b, []. split; [exact I|reflexivity]. Qed.
Lemma insert_step h i c h' : @insert_char runtime_error h i c = Ok h' -> h' = fst (hstep (TypeAt i c) h).
Proof. intros E. cbn [hstep]. rewrite E. reflexivity. Qed.
Lemma remove_step h i h' : @remove_char runtime_error h i = Ok h' -> h' = fst (hstep (EraseAt i) h).
Proof. intros E. cbn [hstep]. rewrite E. reflexivity. Qed.
Lemma up_step h db h' db' r : try_earlier h db = (h', db', r) -> h' = fst (hstep (Up db) h).
Proof. intros E. cbn [hstep]. rewrite E. destruct r as [[|]|?|?]; reflexivity. Qed.
Lemma submit_step h db h' db' r : input_finished h db = (h', db', r) -> h' = fst (hstep (Submit db) h).
Proof. intros E. cbn [hstep]. rewrite E. destruct r as [?|?|?]; reflexivity. Qed.
Lemma down_step h h' b : try_later h = (h', b) -> h' = fst (hstep Down h).
Proof. intros E. cbn [hstep]. rewrite E. destruct b; reflexivity. Qed.

Definition history_result (r : ev_result) : Prop := let '(l', h', _, act) := r in history_of_session h'.
Lemma handle_event_history ev l h db : history_of_session h -> inside h (l_cursor l) -> history_result (handle_event ev l h db).
Proof.
  intros Hh (t & Ht & Hc). pose proof (history_ok h Hh) as Hok. assert (Hcl : current_line (E := runtime_error) h = Ok t) by exact Ht.
  assert (Ins : forall c', history_result (or_stop (insert_char h (l_cursor l) c') l h db (fun h' => (with_cursor l (l_cursor l + 1), h', db, ARedraw)))).
  { intros c'. destruct (@insert_char runtime_error h (l_cursor l) c') as [h'|e|p] eqn:E; cbn [or_stop history_result]; [|exact Hh|exact Hh].
    rewrite (insert_step _ _ _ _ E). apply history_step; [exact Hh|]. intros line El. cbn [in_line]. assert (line = t) by congruence. subst. exact Hc. }
  destruct ev as [code mods| |width|]; try exact Hh. cbn [handle_event]. destruct code as [c| | | | | | | | | |]; try exact Hh.
  - unfold handle_char. destruct (negb (is_ascii c)); [exact Hh|].
    destruct (N.eqb mods CONTROL && (N.eqb c 100 || N.eqb c 122 || N.eqb c 99)); [exact Hh|].
    destruct (N.eqb mods CONTROL && (N.eqb c 109 || N.eqb c 110)).
    { rewrite Hcl. cbn [or_stop]. destruct (paren_jump t (l_cursor l)) as [[q|]|e|p]; exact Hh. }
    destruct (N.eqb mods SHIFT); [apply Ins|]. destruct (negb (N.eqb mods 0)); [exact Hh|apply Ins].
  - destruct (Nat.eqb_spec (l_cursor l) 0); [exact Hh|].
    destruct (@remove_char runtime_error h (l_cursor l - 1)) as [h'|e|p] eqn:E; cbn [or_stop history_result]; [|exact Hh|exact Hh].
    rewrite (remove_step _ _ _ E). apply history_step; [exact Hh|]. intros line El. cbn [in_line]. assert (line = t) by congruence. subst. lia.
  - rewrite Hcl. cbn [or_stop]. destruct (Nat.leb_spec (List.length t) (l_cursor l)); [exact Hh|].
    destruct (@remove_char runtime_error h (l_cursor l)) as [h'|e|p] eqn:E; cbn [or_stop history_result]; [|exact Hh|exact Hh].
    rewrite (remove_step _ _ _ E). apply history_step; [exact Hh|]. intros line El. cbn [in_line]. assert (line = t) by congruence. subst. lia.
  - destruct (try_earlier h db) as [[h' db'] r] eqn:E. assert (H' : history_of_session h') by (rewrite (up_step _ _ _ _ _ E); apply history_step; [exact Hh|intros; exact I]).
    destruct r as [[|]|e|p]; try exact H'. destruct (current_line h') as [?|?|?]; exact H'.
  - destruct (try_later h) as [h' b] eqn:E. assert (H' : history_of_session h') by (rewrite (down_step _ _ _ E); apply history_step; [exact Hh|intros; exact I]).
    destruct b; try exact H'. destruct (current_line h') as [?|?|?]; exact H'.
  - destruct (move_distance mods); exact Hh.
  - destruct (move_distance mods); [|exact Hh]. rewrite Hcl. exact Hh.
  - rewrite Hcl. exact Hh.
Qed.
Lemma start_line_inputs pr tm u : u_inputs (fst (fst (start_line pr tm u))) = u_inputs u.
Proof. unfold start_line. destruct (display pr _ false _ _) as [[l' o]|e|p]; reflexivity. Qed.
Lemma finish_line_history pr ord x tm u : history_of_session (u_inputs u) -> history_of_session (u_inputs (fst (fst (finish_line pr ord x tm u)))).
Proof.
  intros Hh. unfold finish_line. destruct (display _ _ _ _ _) as [[l1 out1]|e|p]; [|exact Hh|exact Hh].
  destruct (current_line (u_inputs u)) as [input|e|p]; [|exact Hh|exact Hh].
  set (se := mkSession (u_args u) (Some (u_inputs u)) (mkEnv (Some (u_vars u)) (u_db u))).
  assert (K : forall h', s_inputs (fst (calculate pr (ord (u_count u)) x input se)) = Some h' -> history_of_session h').
  { unfold calculate, se. cbn [s_inputs s_env s_args e_db]. destruct (input_finished (u_inputs u) (u_db u)) as [[h0 db'] r] eqn:E.
    assert (H0 : history_of_session h0) by (rewrite (submit_step _ _ _ _ _ E); apply history_step; [exact Hh|intros; exact I]).
    destruct r as [id|e|p]; try (intros h' [= <-]; exact H0). destruct (calculate_body _ _ _ _ _ _ _) as [[a' s'] r']. intros h' [= <-]. exact H0. }
  destruct (calculate pr (ord (u_count u)) x input se) as [se' r]. cbn [fst] in K.
  set (h1 := match s_inputs se' with Some h => h | None => u_inputs u end).
  assert (H1 : history_of_session h1) by (unfold h1; destruct (s_inputs se'); [apply K; reflexivity|exact Hh]).
  destruct (render r) as [text|e|p]; [|exact H1|exact H1].
  match goal with |- context [start_line pr tm ?u0] => pose proof (start_line_inputs pr tm u0) as SI; destruct (start_line pr tm u0) as [[u'' out3] st] end.
  cbn [fst u_inputs] in *. rewrite SI. exact H1.
Qed.
Lemma ui_step_history pr ord x tm ev u : history_of_session (u_inputs u) -> inside (u_inputs u) (l_cursor (u_line u)) ->
  history_of_session (u_inputs (fst (fst (ui_step pr ord x tm ev u)))).
Proof.
  intros Hh Hin. pose proof (handle_event_history ev (u_line u) (u_inputs u) (u_db u) Hh Hin) as G. unfold ui_step.
  destruct (handle_event ev (u_line u) (u_inputs u) (u_db u)) as [[[l' h'] db'] act]. cbn [history_result] in G.
  destruct act; try exact G.
  - destruct (display _ _ _ _ _) as [[l'' out]|e|p]; exact G.
  - apply finish_line_history. exact G.
Qed.
Lemma run_events_history pr ord x tm evs : forall u, history_of_session (u_inputs u) -> inside (u_inputs u) (l_cursor (u_line u)) ->
  history_of_session (u_inputs (fst (fst (run_events pr ord x tm evs u)))).
Proof.
  induction evs as [|ev evs IH]; intros u Hh Hin; [exact Hh|]. cbn [run_events].
  pose proof (ui_step_history pr ord x tm ev u Hh Hin) as S. pose proof (ui_step_ok pr ord x tm ev u (conj (history_ok _ Hh) Hin)) as O.
  destruct (ui_step pr ord x tm ev u) as [[u' out] st]. cbn [fst snd] in *. destruct st; try exact S.
  specialize (IH u' S (proj2 (O eq_refl))). destruct (run_events pr ord x tm evs u') as [[u'' out'] st']. exact IH.
Qed.
Lemma interactive_history pr ord x tm a db evs : history_of_session (u_inputs (fst (fst (interactive pr ord x tm a db evs)))).
Proof.
  unfold interactive, interactive_start.
  match goal with |- context [start_line pr tm ?u0] => pose proof (start_line_inputs pr tm u0) as SI; pose proof (start_line_ok pr tm u0 (ih_new_ok _)) as SO; destruct (start_line pr tm u0) as [[u out] st] end.
  cbn [fst u_inputs] in *. assert (H0 : history_of_session (u_inputs u)) by (rewrite SI; apply history_new).
  destruct st; try exact H0.
  pose proof (run_events_history pr ord x tm evs u H0 (proj2 SO)) as R. destruct (run_events pr ord x tm evs u) as [[u' out'] st']. exact R.
Qed.

(** ** What the keys do *)
Lemma firstn_len {A} (a b : list A) : firstn (List.length a) (a ++ b) = a.
Proof. rewrite firstn_app, Nat.sub_diag, firstn_all. cbn. apply app_nil_r. Qed.
Lemma skipn_len {A} (a b : list A) : skipn (List.length a) (a ++ b) = b.
Proof. rewrite skipn_app, Nat.sub_diag, skipn_all. reflexivity. Qed.
Lemma skipn_len1 {A} (a b : list A) c : skipn (S (List.length a)) (a ++ c :: b) = b.
Proof. induction a as [|x a IH]; [reflexivity|]. exact IH. Qed.

Lemma typing l h db c mods a b : history_of_session h -> shown h = Ok (a ++ b) -> l_cursor l = List.length a -> is_ascii c = true ->
  mods = 0%N \/ mods = SHIFT ->
  exists h', handle_event (EvKey (KChar c) mods) l h db = (with_cursor l (List.length a + 1), h', db, ARedraw) /\
    shown h' = Ok (a ++ (if N.eqb mods SHIFT then to_ascii_uppercase c else c) :: b) /\ recorded h' = recorded h /\ ih_index h' = ih_index h.
Proof.
  intros Hh Ht Hc Ha Hm. pose proof (history_ok h Hh) as Hok. cbn [handle_event]. unfold handle_char. rewrite Ha. cbn [negb].
  assert (Nm : N.eqb mods CONTROL = false) by (destruct Hm as [E|E]; rewrite E; reflexivity). rewrite Nm. cbn [andb].
  assert (K : forall c', exists h', or_stop (insert_char h (l_cursor l) c') l h db (fun h' => (with_cursor l (l_cursor l + 1), h', db, ARedraw))
    = (with_cursor l (List.length a + 1), h', db, ARedraw) /\ shown h' = Ok (a ++ c' :: b) /\ recorded h' = recorded h /\ ih_index h' = ih_index h).
  { intros c'. destruct (insert_shown h (l_cursor l) c' (a ++ b) Hok Ht) as (h' & E & _ & S' & R' & I'); [rewrite app_length; lia|].
    rewrite Hc, firstn_len, skipn_len in S'. exists h'. rewrite E. cbn [or_stop]. rewrite Hc. auto. }
  destruct Hm as [E|E]; subst mods; [exact (K c)|exact (K (to_ascii_uppercase c))].
Qed.
Lemma backspace l h db mods a c b : history_of_session h -> shown h = Ok (a ++ c :: b) -> l_cursor l = S (List.length a) ->
  exists h', handle_event (EvKey KBackspace mods) l h db = (with_cursor l (List.length a), h', db, ARedraw) /\
    shown h' = Ok (a ++ b) /\ recorded h' = recorded h /\ ih_index h' = ih_index h.
Proof.
  intros Hh Ht Hc. pose proof (history_ok h Hh) as Hok. cbn [handle_event]. rewrite Hc. cbn [Nat.eqb]. replace (S (List.length a) - 1) with (List.length a) by lia.
  destruct (remove_shown h (List.length a) _ Hok Ht) as (h' & E & _ & S' & R' & I'); [rewrite app_length; cbn [List.length]; lia|].
  rewrite firstn_len, skipn_len1 in S'. exists h'. rewrite E. auto.
Qed.
Lemma delete_key l h db mods a c b : history_of_session h -> shown h = Ok (a ++ c :: b) -> l_cursor l = List.length a ->
  exists h', handle_event (EvKey KDelete mods) l h db = (l, h', db, ARedraw) /\
    shown h' = Ok (a ++ b) /\ recorded h' = recorded h /\ ih_index h' = ih_index h.
Proof.
  intros Hh Ht Hc. pose proof (history_ok h Hh) as Hok. cbn [handle_event]. fold (shown h). rewrite Ht. cbn [or_stop]. rewrite Hc.
  rewrite app_length. cbn [List.length]. destruct (Nat.leb_spec (List.length a + S (List.length b)) (List.length a)); [lia|].
  destruct (remove_shown h (List.length a) _ Hok Ht) as (h' & E & _ & S' & R' & I'); [rewrite app_length; cbn [List.length]; lia|].
  rewrite firstn_len, skipn_len1 in S'. exists h'. rewrite E. auto.
Qed.
Lemma edge_keys l h db mods t : shown h = Ok t ->
  (l_cursor l = 0 -> handle_event (EvKey KBackspace mods) l h db = (l, h, db, AIgnore)) /\
  (l_cursor l = List.length t -> handle_event (EvKey KDelete mods) l h db = (l, h, db, AIgnore)).
Proof.
  intros Ht. split; intros Hc; cbn [handle_event].
  - rewrite Hc. reflexivity.
  - fold (shown h). rewrite Ht. cbn [or_stop]. rewrite Hc, Nat.leb_refl. reflexivity.
Qed.
(** where a movement key puts the cursor *)
Lemma move_left l h db mods d : move_distance mods = Some d ->
  handle_event (EvKey KLeft mods) l h db = (with_cursor l (l_cursor l - d), h, db, ARedraw).
Proof. intros E. cbn [handle_event]. rewrite E. destruct (Nat.leb_spec (l_cursor l) d); do 3 f_equal. replace (l_cursor l - d) with 0 by lia. reflexivity. Qed.
Lemma move_right l h db mods d t : move_distance mods = Some d -> shown h = Ok t -> l_cursor l <= List.length t ->
  handle_event (EvKey KRight mods) l h db = (with_cursor l (Nat.min (List.length t) (l_cursor l + d)), h, db, ARedraw).
Proof.
  intros E Ht Hc. cbn [handle_event]. rewrite E. fold (shown h). rewrite Ht. cbn [or_stop]. do 4 f_equal.
  destruct (Nat.leb_spec (List.length t) d); cbn [orb]; [lia|]. destruct (Nat.leb_spec (List.length t - d) (l_cursor l)); lia.
Qed.
Lemma uppercase_capital c : capital c (to_ascii_uppercase c).
Proof.
  unfold to_ascii_uppercase. destruct (N.leb_spec 97 c) as [A|A]; destruct (N.leb_spec c 122) as [B|B]; cbn [andb]; [|apply cap_other; lia..].
  assert (E : c = (97 + (c - 97))%N) by lia. rewrite E at 1. replace (c - 32)%N with (65 + (c - 97))%N by lia. apply cap_letter. lia.
Qed.
