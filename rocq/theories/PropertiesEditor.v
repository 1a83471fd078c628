(** PropertiesEditor.v -- the line editor: C46-C53 and C61. *)
From Verif Require Import Base Position Num TokenTypes Errors Token Operations SavedData Variables InputHistory SyntaxTree Commands Calculate Editor SpecEditor.
From Verif Require Import ProofsEditor ProofsEditor2 ProofsEditor3 ProofsEditor4.
From Coq Require Import String.
Local Open Scope nat_scope.
Local Open Scope list_scope.

(** For the examples: a database holding the lines "1+1" and "2*2" of an earlier session, as it
    is when opened, when one line was fetched, and when both were. *)
Definition opened (file : database) : saved_data :=
  match snd (sd_open [] file) with Ok sd => sd | _ => mkSD empty_db None [] end.
Definition disk0 : saved_data :=
  opened (sd_db (fst (add_to_input_history (lit "2*2") (fst (add_to_input_history (lit "1+1") (opened empty_db)))))).
Definition disk1 : saved_data := fst (get_prev_input_history disk0).
Definition disk2 : saved_data := fst (get_prev_input_history disk1).
(** Type "7", recall both lines from disk, change the older one, go down and up again, and
    submit it; then recall. *)
Definition acts_demo : list haction :=
  [ TypeAt 0 55%N; Up (Some disk0); Up (Some disk1); EraseAt 0; TypeAt 0 53%N; Down; Up (Some disk2); Submit (Some disk2);
    Up (Some disk2); Up (Some disk2); Up (Some disk2); Up (Some disk2) ].
Example acts_demo_run : hrun acts_demo (ih_new true) =
  [ (Moved, Ok (lit "7")); (Moved, Ok (lit "2*2")); (Moved, Ok (lit "1+1")); (Moved, Ok (lit "+1")); (Moved, Ok (lit "5+1"));
    (Moved, Ok (lit "2*2")); (Moved, Ok (lit "5+1")); (Moved, Ok []);
    (Moved, Ok (lit "5+1")); (Moved, Ok (lit "2*2")); (Moved, Ok (lit "1+1")); (Refused, Ok (lit "1+1")) ].
Proof. vm_compute. reflexivity. Qed.
(** A test for [well_placed], to check examples by computation. *)
Fixpoint placed (acts : list haction) (h : input_history) : bool :=
  match acts with
  | [] => true
  | act :: rest =>
      match shown h, act with
      | Ok line, TypeAt i _ => Nat.leb i (List.length line)
      | Ok line, EraseAt i => Nat.ltb i (List.length line)
      | _, _ => true
      end && placed rest (fst (hstep act h))
  end.
Lemma placed_ok acts : forall h, placed acts h = true -> well_placed acts h.
Proof.
  induction acts as [|act acts IH]; intros h H; [exact I|]. cbn [placed] in H. apply andb_prop in H as [H1 H2]. split; [|apply IH; exact H2].
  intros line E. rewrite E in H1. destruct act; cbn [in_line]; auto; [apply Nat.leb_le|apply Nat.ltb_lt]; exact H1.
Qed.
Lemma acts_demo_placed : well_placed acts_demo (ih_new true).
Proof. apply placed_ok. vm_compute. reflexivity. Qed.

(** ** C46 *)
(** Whatever is done to the history of a session (up, down, edits inside the shown line, submits),
    and whatever the database contains or answers at each moment, nothing crashes, the line to
    show is always defined, and answers and shown lines are those of the specified history. *)
Theorem C46_scrollback_is_total : forall use_db acts, well_placed acts (ih_new use_db) ->
  sheet_run acts (sh_new use_db) (hrun acts (ih_new use_db)) /\
  Forall (fun o => (forall p, fst o <> Crash p) /\ exists line, snd o = Ok line) (hrun acts (ih_new use_db)).
Proof.
  intros b acts Hw. destruct (hrun_refines acts (ih_new b) (sh_new b) (ih_new_ok b)) as (A & _ & C); [|exact Hw|split; assumption].
  repeat split; try (cbn; destruct b; reflexivity). intros [|[|k]]; reflexivity.
Qed.
Print Assumptions C46_scrollback_is_total.
Example C46_example : well_placed acts_demo (ih_new true) /\ List.length (hrun acts_demo (ih_new true)) = 12.
Proof. split; [exact acts_demo_placed|vm_compute; reflexivity]. Qed.

(** ** C47 *)
(** What a line shows persists, whatever else is done, until it is itself edited or a line is submitted. *)
Theorem C47_edits_persist : forall h acts line,
  history_of_session h -> well_placed acts h -> spares (ih_index h) acts h -> shown h = Ok line ->
  ih_index (hend acts h) = ih_index h -> shown (hend acts h) = Ok line.
Proof. intros h acts line Hh. apply edits_persist. exact (history_ok h Hh). Qed.
Print Assumptions C47_edits_persist.
(** Edits never change what is recorded, and submitting adds exactly the shown line; afterwards
    every line recalled (and the new empty line) is shown as recorded, without the edits. *)
Theorem C47_edits_leave_the_record : forall h act line,
  history_of_session h -> shown h = Ok line -> in_line act line -> is_edit act -> recorded (fst (hstep act h)) = recorded h.
Proof.
  intros h act line Hh Ht Hin He. pose proof (history_ok h Hh) as Hok. destruct act as [| |i c|i|]; try destruct He; cbn [in_line hstep] in *.
  - destruct (insert_shown h i c line Hok Ht Hin) as (h' & -> & _ & _ & R & _). exact R.
  - destruct (remove_shown h i line Hok Ht Hin) as (h' & -> & _ & _ & R & _). exact R.
Qed.
Print Assumptions C47_edits_leave_the_record.
Theorem C47_submit_discards_edits : forall h db line acts,
  history_of_session h -> shown h = Ok line -> moves_only acts ->
  let later := hend acts (fst (hstep (Submit db) h)) in
  exists more now, recorded later = line :: recorded h ++ more /\ shown later = Ok now /\
    nth_error ([] :: recorded later) (ih_index later) = Some now.
Proof. intros h db line acts Hh. apply submit_discards. exact (history_ok h Hh). Qed.
Print Assumptions C47_submit_discards_edits.
Example C47_example :
  let h := hend (firstn 5 acts_demo) (ih_new true) in
  history_of_session h /\ shown h = Ok (lit "5+1") /\ ih_index h = 2 /\ recorded h = [lit "2*2"; lit "1+1"] /\
  spares (ih_index h) [Down; Up (Some disk2)] h /\ ih_index (hend [Down; Up (Some disk2)] h) = 2 /\
  let later := hend [Up None; Up None; Up None] (fst (hstep (Submit (Some disk2)) h)) in
  recorded later = [lit "5+1"; lit "2*2"; lit "1+1"] /\ shown later = Ok (lit "1+1").
Proof.
  cbv zeta. split; [exists true, (firstn 5 acts_demo); split; [apply placed_ok; vm_compute; reflexivity|reflexivity]|].
  split; [vm_compute; reflexivity|]. split; [vm_compute; reflexivity|]. split; [vm_compute; reflexivity|].
  split; [split; [intros []|split; [intros []|split; [intros []|split; [intros []|exact I]]]]|].
  vm_compute. repeat split; reflexivity.
Qed.

(** ** C48 *)
(** Up moves one line further into the past: along this session's lines newest first, then along
    the lines on disk.  It is refused exactly when nothing older is left, and then nothing moves;
    if the database fails, nothing changes at all. *)
Theorem C48_up : forall h db h' a, history_of_session h -> hstep (Up db) h = (h', a) ->
  match a with
  | Moved => ih_index h' = S (ih_index h) /\
      (ih_index h < List.length (recorded h) /\ recorded h' = recorded h \/
       ih_index h = List.length (recorded h) /\
       exists sd t, db = Some sd /\ from_disk sd = Ok (Some t) /\ recorded h' = recorded h ++ [t])
  | Refused => ih_index h' = ih_index h /\ ih_index h = List.length (recorded h) /\ recorded h' = recorded h /\
      ih_exhausted h' = true /\ (ih_exhausted h = true \/ exists sd, db = Some sd /\ from_disk sd = Ok None)
  | Error e => h' = h /\ ih_index h = List.length (recorded h) /\ forall sd, db = Some sd -> from_disk sd = Err e
  | Crash _ => False
  end.
Proof.
  intros h db h' a Hh E. pose proof (up_spec h db h' a (history_ok h Hh) E) as U. destruct a; auto.
  - destruct U as (A & _ & [B|(B & _ & C)]); auto.
  - destruct U as (A & B & _ & C). auto.
Qed.
Print Assumptions C48_up.
(** The history gives up on the disk only after the disk said there was nothing older (or when
    there is no disk). *)
Theorem C48_gives_up_only_at_the_end : forall use_db acts, well_placed acts (ih_new use_db) ->
  ih_exhausted (hend acts (ih_new use_db)) = true ->
  use_db = false \/ exists sd, In (Up (Some sd)) acts /\ from_disk sd = Ok None.
Proof.
  intros b acts Hw. destruct b; [right|left; reflexivity].
  assert (G : forall acts h, ih_ok h -> well_placed acts h -> ih_exhausted h = false -> ih_exhausted (hend acts h) = true ->
    exists sd, In (Up (Some sd)) acts /\ from_disk sd = Ok None).
  { clear acts Hw H. induction acts as [|act acts IH]; intros h Hok Hw E0 E; [cbn in E; congruence|].
    destruct Hw as [Hin Hw]. cbn [hend] in E. destruct (hstep_refines act h Hok Hin) as (Hok' & _ & s' & St & (_ & _ & V & _)).
    destruct (ih_exhausted (fst (hstep act h))) eqn:E1.
    - assert (sh_more (sheet_of h) = true) by (cbn; rewrite E0; reflexivity).
      assert (sh_more s' = false) by (rewrite V; cbn; rewrite E1; reflexivity).
      inversion St; subst; cbn [sh_more] in *; try congruence. eexists. split; [left; reflexivity|assumption].
    - destruct (IH _ Hok' Hw E1 E) as (sd & Hi & F). exists sd. split; [right; exact Hi|exact F]. }
  apply (G acts (ih_new true)); auto. apply ih_new_ok.
Qed.
Print Assumptions C48_gives_up_only_at_the_end.
(** Down goes back one line, and is refused only at the line being composed. *)
Theorem C48_down : forall h, match ih_index h with
  | 0 => hstep Down h = (h, Refused)
  | S k => exists h', hstep Down h = (h', Moved) /\ ih_index h' = k /\ recorded h' = recorded h
  end.
Proof. exact down_spec. Qed.
Print Assumptions C48_down.
(** Up and down are inverse: the same position and the same text come back. *)
Theorem C48_up_then_down : forall h db h1, history_of_session h -> hstep (Up db) h = (h1, Moved) ->
  exists h2, hstep Down h1 = (h2, Moved) /\ ih_index h2 = ih_index h /\ shown h2 = shown h.
Proof. intros h db h1 Hh. apply up_down. exact (history_ok h Hh). Qed.
Print Assumptions C48_up_then_down.
Theorem C48_down_then_up : forall h db h1, history_of_session h -> hstep Down h = (h1, Moved) ->
  exists h2, hstep (Up db) h1 = (h2, Moved) /\ ih_index h2 = ih_index h /\ recorded h2 = recorded h /\ shown h2 = shown h.
Proof. intros h db h1 Hh. apply down_up. exact (history_ok h Hh). Qed.
Print Assumptions C48_down_then_up.
(** Position [k] of an unedited history shows the [k]-th newest recorded line. *)
Theorem C48_position_shows_record : forall h acts, history_of_session h -> moves_only acts ->
  ih_index h = 0 -> shown h = Ok [] -> (forall k, k <> 0 -> forall t, nth_error (ih_current h) k <> Some (Some t)) ->
  exists line, shown (hend acts h) = Ok line /\ nth_error ([] :: recorded (hend acts h)) (ih_index (hend acts h)) = Some line.
Proof.
  intros h acts Hh Hm I0 Ht He. pose proof (history_ok h Hh) as Hok.
  destruct (moves_shown acts h Hok Hm) as (more & _ & Y & Z).
  - intros k. destruct (Nat.eq_dec k 0) as [->|Nk].
    + destruct (shown_sheet h Hok) as (t & Et & St). rewrite I0 in St. rewrite St. assert (t = []) by congruence. subst t. reflexivity.
    + unfold shown_at, sheet_of. cbn [sh_edits]. unfold edits_of. destruct (nth_error (ih_current h) k) as [[t|]|] eqn:E; [destruct (He k Nk t E)| |]; reflexivity.
  - destruct (shown_sheet _ Z) as (line & E & S). exists line. split; [exact E|]. rewrite <- Y. exact S.
Qed.
Print Assumptions C48_position_shows_record.
Example C48_example : map fst (hrun [Up (Some disk0); Up (Some disk1); Up (Some disk2); Down; Down; Down] (ih_new true)) =
  [Moved; Moved; Refused; Moved; Moved; Refused].
Proof. vm_compute. reflexivity. Qed.

(** ** C49 *)
(** Whenever the program waits for a key, the cursor is inside the shown line (whatever the
    database, terminal, settings and keys before), the history is one the theorems above speak
    about, and no event crashes the editor's handling of it. *)
Theorem C49_cursor_inside : forall pr ord x tm a db evs u out,
  interactive pr ord x tm a db evs = (u, out, Waiting) ->
  history_of_session (u_inputs u) /\ cursor_inside u /\
  forall ev p, snd (handle_event ev (u_line u) (u_inputs u) (u_db u)) <> APanic p.
Proof.
  intros pr ord x tm a db evs u out E. pose proof (interactive_ok pr ord x tm a db evs) as K. pose proof (interactive_history pr ord x tm a db evs) as H.
  rewrite E in *. cbn [fst snd] in *. destruct (K eq_refl) as (Hok & Hin). split; [exact H|]. split; [exact Hin|].
  intros ev p. pose proof (handle_event_good ev (u_line u) (u_inputs u) (u_db u) Hok Hin) as G.
  destruct (handle_event ev (u_line u) (u_inputs u) (u_db u)) as [[[l' h'] db'] act]. exact (proj2 (proj2 G) p).
Qed.
Print Assumptions C49_cursor_inside.
(** An 80-column terminal and default settings, for the examples. *)
Definition term80 : terminal := fun _ => ((0, 3), 80).
Definition settings0 (alternate : bool) : args := mkArgs 10 alternate None 5 3 false false true.
Definition table : executor := match @executor_new Empty_set with Ok x => x | _ => mkExec [] [] end.
Definition key (c : char) : event := EvKey (KChar c) 0.
Definition evs_demo : list event :=
  [key 40%N; key 49%N; key 43%N; EvKey (KChar 97%N) SHIFT; EvKey KLeft 0; EvKey KBackspace 0; EvKey KEnd 0; key 41%N;
   EvKey (KChar 109%N) CONTROL; EvKey KDelete 0; EvKey KEnter 0; EvKey KUp 0; EvKey KRight SHIFT; EvResize 40; EvKey KHome 0].
Example C49_example :
  let '(u, _, st) := interactive Debug (fun _ l => l) table term80 (settings0 false) (Some disk0) evs_demo in
  st = Waiting /\ shown (u_inputs u) = Ok (lit "1A)") /\ l_cursor (u_line u) = 0 /\ u_count u = 1 /\ l_cols (u_line u) = 40.
Proof. vm_compute. repeat split; reflexivity. Qed.

(** ** C50 *)
(** Typing puts the character before the cursor (Shift: its capital). *)
Theorem C50_typing : forall l h db c mods a b,
  history_of_session h -> shown h = Ok (a ++ b) -> l_cursor l = List.length a -> (c < 128)%N ->
  mods = 0%N \/ mods = SHIFT ->
  exists h' typed, handle_event (EvKey (KChar c) mods) l h db = (cursor_to l (List.length a + 1), h', db, ARedraw) /\
    (mods = 0%N -> typed = c) /\ (mods = SHIFT -> capital c typed) /\
    shown h' = Ok (a ++ typed :: b) /\
    recorded h' = recorded h /\ ih_index h' = ih_index h.
Proof.
  intros l h db c mods a b Hh Hs Hc A Hm. apply N.ltb_lt in A. destruct (typing l h db c mods a b Hh Hs Hc A Hm) as (h' & E & Sh & R & I).
  exists h', (if N.eqb mods SHIFT then to_ascii_uppercase c else c). split; [exact E|].
  split; [intros ->; reflexivity|]. split; [|auto]. intros ->. rewrite N.eqb_refl. apply uppercase_capital.
Qed.
Print Assumptions C50_typing.
Theorem C50_backspace : forall l h db mods a c b,
  history_of_session h -> shown h = Ok (a ++ c :: b) -> l_cursor l = S (List.length a) ->
  exists h', handle_event (EvKey KBackspace mods) l h db = (cursor_to l (List.length a), h', db, ARedraw) /\
    shown h' = Ok (a ++ b) /\ recorded h' = recorded h /\ ih_index h' = ih_index h.
Proof. exact backspace. Qed.
Print Assumptions C50_backspace.
Theorem C50_delete : forall l h db mods a c b,
  history_of_session h -> shown h = Ok (a ++ c :: b) -> l_cursor l = List.length a ->
  exists h', handle_event (EvKey KDelete mods) l h db = (l, h', db, ARedraw) /\
    shown h' = Ok (a ++ b) /\ recorded h' = recorded h /\ ih_index h' = ih_index h.
Proof. exact delete_key. Qed.
Print Assumptions C50_delete.
(** At the ends of the line there is nothing to delete. *)
Theorem C50_nothing_to_delete : forall l h db mods t, shown h = Ok t ->
  (l_cursor l = 0 -> handle_event (EvKey KBackspace mods) l h db = (l, h, db, AIgnore)) /\
  (l_cursor l = List.length t -> handle_event (EvKey KDelete mods) l h db = (l, h, db, AIgnore)).
Proof. exact edge_keys. Qed.
Print Assumptions C50_nothing_to_delete.
(** Left and Right move by one, with Shift or Ctrl by fifteen, stopping at the ends; Home and End
    go to the ends; none of them changes any line. *)
Theorem C50_movement : forall l h db mods d t, shown h = Ok t -> l_cursor l <= List.length t ->
  (mods = 0%N /\ d = 1 \/ (mods = SHIFT \/ mods = CONTROL) /\ d = 15) ->
  handle_event (EvKey KLeft mods) l h db = (cursor_to l (l_cursor l - d), h, db, ARedraw) /\
  handle_event (EvKey KRight mods) l h db = (cursor_to l (Nat.min (List.length t) (l_cursor l + d)), h, db, ARedraw) /\
  handle_event (EvKey KHome mods) l h db = (cursor_to l 0, h, db, ARedraw) /\
  handle_event (EvKey KEnd mods) l h db = (cursor_to l (List.length t), h, db, ARedraw).
Proof.
  intros l h db mods d t Ht Hc Hd. assert (E : move_distance mods = Some d) by (destruct Hd as [(E1 & E2)|([E1|E1] & E2)]; rewrite E1, E2; reflexivity).
  split; [apply move_left; exact E|]. split; [apply move_right; assumption|]. split; [reflexivity|]. cbn [handle_event]. fold (shown h). rewrite Ht. reflexivity.
Qed.
Print Assumptions C50_movement.
(** Nothing but typing, backspace, delete, up and down touches the shown line or the record. *)
Definition may_change_line (ev : event) : Prop :=
  match ev with
  | EvKey (KChar c) mods => (c < 128)%N /\ (mods = 0%N \/ mods = SHIFT)
  | EvKey KBackspace _ | EvKey KDelete _ | EvKey KUp _ | EvKey KDown _ => True
  | _ => False
  end.
Theorem C50_other_keys_keep_the_line : forall ev l h db l' h' db' act, ~ may_change_line ev ->
  handle_event ev l h db = (l', h', db', act) -> h' = h /\ db' = db.
Proof.
  intros ev l h db l' h' db' act N E. assert (Q : forall l1 h1 db1 a1, (l1, h1, db1, a1) = (l', h', db', act) -> h1 = h -> db1 = db -> h' = h /\ db' = db).
  { intros l1 h1 db1 a1 E1 -> ->. injection E1 as _ <- <- _. auto. }
  destruct ev as [code mods| |w|]; try (eapply Q; [exact E|reflexivity|reflexivity]). cbn [handle_event] in E.
  destruct code as [c| | | | | | | | | |]; try (destruct N; exact I); try (eapply Q; [exact E|reflexivity|reflexivity]).
  - unfold handle_char in E. destruct (is_ascii c) eqn:A; cbn [negb] in E; [|eapply Q; [exact E|reflexivity|reflexivity]].
    destruct (N.eqb mods CONTROL && (N.eqb c 100 || N.eqb c 122 || N.eqb c 99)); [eapply Q; [exact E|reflexivity|reflexivity]|].
    destruct (N.eqb mods CONTROL && (N.eqb c 109 || N.eqb c 110)).
    { destruct (current_line h) as [t|e|p]; cbn [or_stop] in E; try (eapply Q; [exact E|reflexivity|reflexivity]).
      destruct (paren_jump t (l_cursor l)) as [[q|]|e|p]; cbn [or_stop] in E; eapply Q; try exact E; reflexivity. }
    apply N.ltb_lt in A. destruct (N.eqb_spec mods SHIFT) as [Em|]; [destruct N; cbn; auto|]. destruct (N.eqb_spec mods 0) as [Em|]; [destruct N; cbn; auto|].
    cbn [negb] in E. eapply Q; [exact E|reflexivity|reflexivity].
  - destruct (move_distance mods); eapply Q; try exact E; reflexivity.
  - destruct (move_distance mods); [|eapply Q; [exact E|reflexivity|reflexivity]].
    destruct (current_line h) as [t|e|p]; cbn [or_stop] in E; eapply Q; try exact E; reflexivity.
  - destruct (current_line h) as [t|e|p]; cbn [or_stop] in E; eapply Q; try exact E; reflexivity.
Qed.
Print Assumptions C50_other_keys_keep_the_line.
(** Up and down put the cursor at the end of the line they show. *)
Theorem C50_recall_puts_cursor_at_end : forall code mods l h db l' h' db' t,
  code = KUp \/ code = KDown -> handle_event (EvKey code mods) l h db = (l', h', db', ARedraw) -> shown h' = Ok t ->
  l_cursor l' = List.length t.
Proof.
  intros code mods l h db l' h' db' t [-> | ->] E Ht; cbn [handle_event] in E.
  - destruct (try_earlier h db) as [[h1 db1] [[|]|e|p]]; try discriminate E. destruct (current_line h1) as [t1|e|p] eqn:C; cbn [or_stop] in E; try discriminate E.
    injection E as <- <- <-. cbn [l_cursor]. unfold shown in Ht. congruence.
  - destruct (try_later h) as [h1 [|]]; try discriminate E. destruct (current_line h1) as [t1|e|p] eqn:C; cbn [or_stop] in E; try discriminate E.
    injection E as <- <- <-. cbn [l_cursor]. unfold shown in Ht. congruence.
Qed.
Print Assumptions C50_recall_puts_cursor_at_end.
Example C50_example :
  let h := hend (firstn 3 acts_demo) (ih_new true) in
  shown h = Ok (lit "1" ++ lit "+1") /\
  let '(l', h', _, act) := handle_event (EvKey (KChar 98%N) SHIFT) (mkLine 1 0 (0, 0) 80) h None in
  shown h' = Ok (lit "1B+1") /\ l_cursor l' = 2 /\ act = ARedraw /\
  let '(l2, h2, _, _) := handle_event (EvKey KBackspace 0) l' h' None in shown h2 = Ok (lit "1+1") /\ l_cursor l2 = 1.
Proof. vm_compute. repeat split; reflexivity. Qed.

(** ** C51 *)
(** The jump goes to the matching parenthesis of the character under the cursor (the last
    character when the cursor is at the end) exactly when there is one, and never crashes. *)
Theorem C51_jump_finds_the_partner : forall line cursor,
  exists r, paren_jump line cursor = Ok r /\
    forall q, r = Some q <-> partners line (Nat.min cursor (List.length line - 1)) q.
Proof. exact paren_jump_partner. Qed.
Print Assumptions C51_jump_finds_the_partner.
Theorem C51_jump_returns : forall line p q, p < List.length line -> paren_jump line p = Ok (Some q) ->
  q < List.length line /\ paren_jump line q = Ok (Some p).
Proof. exact paren_jump_back. Qed.
Print Assumptions C51_jump_returns.
Theorem C51_partner_is_unique : forall line p q q', partners line p q -> partners line p q' -> q = q'.
Proof. exact partners_unique. Qed.
Print Assumptions C51_partner_is_unique.
(** Ctrl+M and Ctrl+N do this. *)
Theorem C51_keys_jump : forall l h db c t, c = 109%N \/ c = 110%N -> shown h = Ok t ->
  (forall q, partners t (Nat.min (l_cursor l) (List.length t - 1)) q ->
     handle_event (EvKey (KChar c) CONTROL) l h db = (cursor_to l q, h, db, ARedraw)) /\
  ((forall q, ~ partners t (Nat.min (l_cursor l) (List.length t - 1)) q) ->
     handle_event (EvKey (KChar c) CONTROL) l h db = (l, h, db, AIgnore)).
Proof.
  intros l h db c t Hc Ht. destruct (paren_jump_partner t (l_cursor l)) as (r & Er & R).
  assert (E : handle_event (EvKey (KChar c) CONTROL) l h db = match r with Some q => (cursor_to l q, h, db, ARedraw) | None => (l, h, db, AIgnore) end).
  { cbn [handle_event]. unfold handle_char. destruct Hc as [E|E]; rewrite E; cbn [is_ascii negb]; fold (shown h); rewrite Ht; cbn [or_stop N.eqb]; unfold or_stop; rewrite Er; destruct r; reflexivity. }
  rewrite E. split.
  - intros q Q. rewrite (proj2 (R q) Q). reflexivity.
  - intros Q. destruct r as [q|]; [|reflexivity]. destruct (Q q). apply R. reflexivity.
Qed.
Print Assumptions C51_keys_jump.
Example C51_example : paren_jump (lit "2*(3+(4)-(5))") 2 = Ok (Some 12) /\ paren_jump (lit "2*(3+(4)-(5))") 13 = Ok (Some 2) /\
  paren_jump (lit "((1)") 0 = Ok None /\ partners (lit "2*(3+(4)-(5))") 2 12.
Proof.
  split; [reflexivity|]. split; [reflexivity|]. split; [reflexivity|]. destruct (paren_jump_partner (lit "2*(3+(4)-(5))") 2) as (r & E & R).
  apply (R 12). vm_compute in E. injection E as <-. reflexivity.
Qed.

(** ** C52 *)
(** In inline mode, on any terminal at least six columns wide, the display is: the prompt (or the
    left mark), a slice of the line, and the right mark if text is left out; it fits on one row,
    and the screen cell the cursor is put on is the one of the character at the cursor. *)
Theorem C52_scrolling_display_partial : forall pr cols cursor offset line,
  6 <= cols -> fits_u16 cols -> cursor <= List.length line ->
  exists off opener part closer column, display_scrolling pr cols cursor offset line =
    Ok (off, [MoveToColumn 0; ClearCurrentLine; Print opener; Print part; Print closer; MoveToColumn column]) /\
  part = firstn (cols - 4) (skipn off line) /\
  opener = (if Nat.eqb off 0 then lit "# " else lit "< ") /\
  closer = (if Nat.ltb (off + (cols - 4)) (List.length line) then lit " >" else []) /\
  List.length (opener ++ part ++ closer) <= cols /\
  off <= cursor /\ cursor < off + (cols - 4) /\ column < cols /\ column = List.length opener + (cursor - off) /\
  (cursor < List.length line -> nth_error (opener ++ part ++ closer) column = nth_error line cursor).
Proof.
  intros pr cols cursor offset line H6 Hu Hc.
  destruct (scrolling_ok pr cols cursor offset line ltac:(lia) Hu Hc) as (off & opener & part & closer & E & P1 & P2 & P3 & _ & P4 & P5).
  specialize (P3 H6). exists off, opener, part, closer, (2 + (cursor - off)). split; [exact E|]. split; [exact P1|]. split; [exact P4|]. split; [exact P5|].
  assert (Lo : List.length opener = 2) by (rewrite P4; destruct (Nat.eqb off 0); reflexivity).
  assert (Lp : List.length part <= cols - 4) by (rewrite P1, firstn_length; lia).
  assert (Lc : List.length closer <= 2) by (rewrite P5; destruct (Nat.ltb _ _); cbn; lia).
  split; [rewrite !app_length; lia|]. split; [exact P2|]. split; [exact P3|]. split; [lia|]. split; [lia|].
  intros Hl. rewrite nth_error_app2 by lia. rewrite Lo. replace (2 + (cursor - off) - 2) with (cursor - off) by lia.
  assert (Lp' : cursor - off < List.length part) by (rewrite P1, firstn_length, skipn_length; lia).
  rewrite nth_error_app1 by exact Lp'. rewrite P1, nth_firstn by lia. rewrite nth_skipn. f_equal. lia.
Qed.
Print Assumptions C52_scrolling_display_partial.
(** The full statement includes five columns, which the program accepts too; there the cursor can
    be put on a cell that is not the cursor's character. *)
Theorem C52_scrolling_display_refuted : exists pr cols cursor offset line off opener part closer column,
  5 <= cols /\ fits_u16 cols /\ cursor < List.length line /\
  display_scrolling pr cols cursor offset line =
    Ok (off, [MoveToColumn 0; ClearCurrentLine; Print opener; Print part; Print closer; MoveToColumn column]) /\
  nth_error (opener ++ part ++ closer) column <> nth_error line cursor.
Proof.
  exists Debug, 5, 3, 0, (lit "12345"), 2, (lit "< "), (lit "3"), (lit " >"), 3. split; [lia|]. split; [reflexivity|]. split; [cbn; lia|].
  split; [reflexivity|]. discriminate.
Qed.
Print Assumptions C52_scrolling_display_refuted.
(** No width crashes the display: from five columns on it succeeds, below it reports the error. *)
Theorem C52_scrolling_display_never_crashes : forall pr cols cursor offset line,
  fits_u16 cols -> cursor <= List.length line ->
  (5 <= cols -> exists off cmds, display_scrolling pr cols cursor offset line = Ok (off, cmds)) /\
  (cols < 5 -> display_scrolling pr cols cursor offset line = Err (CalculatorEnvironmentError (lit "Window too narrow"))).
Proof.
  intros pr cols cursor offset line Hu Hc. split; intros H.
  - destruct (scrolling_ok pr cols cursor offset line H Hu Hc) as (off & o & p & c & E & _). eauto.
  - unfold display_scrolling. change (List.length SCROLL_LEFT_INDICATOR_STR + List.length SCROLL_RIGHT_INDICATOR_STR) with 4.
    destruct (Nat.leb_spec cols 4); [reflexivity|lia].
Qed.
Print Assumptions C52_scrolling_display_never_crashes.
Example C52_example : display_scrolling Debug 10 8 0 (lit "123456789abc") =
  Ok (4, [MoveToColumn 0; ClearCurrentLine; Print (lit "< "); Print (lit "56789a"); Print (lit " >"); MoveToColumn 6]).
Proof. vm_compute. reflexivity. Qed.

(** ** C53 *)
(** In wrapped mode, on a terminal at least three columns wide: the rows are the prompt or two
    spaces followed by consecutive pieces of the line which make up the whole line, each row fits,
    and the cell the cursor is put on is the one of the character at the cursor. *)
Theorem C53_wrapped_display_partial : forall pr alternate complete cols cursor start line,
  3 <= cols -> fits_u16 cols -> fits_u16 (cursor / (cols - 2) + snd start) -> ~ In c_newline line ->
  exists body, display_wrapped pr alternate complete cols cursor start line =
    Ok (body ++ (if complete then if alternate then [MoveToNextLine 1] else [Print [c_newline]; MoveToColumn 0]
                 else [MoveTo (2 + cursor mod (cols - 2)) (cursor / (cols - 2) + snd start)])) /\
  hd_error body = Some (if alternate then MoveTo (fst start) (snd start) else MoveToColumn 0) /\
  exists first rest, printed_rows body = (lit "# " ++ first) :: map (app (lit "  ")) rest /\
    folded (cols - 2) line (first :: rest) /\
    (forall row, In row (printed_rows body) -> List.length row <= cols) /\
    (cursor < List.length line -> exists row, nth_error (printed_rows body) (cursor / (cols - 2)) = Some row /\
       nth_error row (2 + cursor mod (cols - 2)) = nth_error line cursor).
Proof.
  intros pr alt complete cols cursor start line H3 Hu Hr Hn.
  destruct (wrapped_ok pr alt complete cols cursor start line H3 Hu Hr Hn) as (body & E & prefix & text & Eb & Ep & c1 & cs & R & C & S & K & Fo).
  exists body. split; [rewrite E; destruct complete, alt; reflexivity|]. split; [rewrite Eb, Ep; destruct alt; reflexivity|].
  exists c1, cs. split; [exact R|]. split; [exact Fo|]. split.
  - intros row Hrow. rewrite R in Hrow. destruct Hrow as [<-|Hrow].
    + rewrite app_length. specialize (S c1 (or_introl eq_refl)). cbn [List.length lit]. change (List.length (lit "# ")) with 2. lia.
    + apply in_map_iff in Hrow as (c & <- & Hc). rewrite app_length. specialize (S c (or_intror Hc)). change (List.length (lit "  ")) with 2. lia.
  - intros Hl. destruct (K cursor Hl) as (c & C1 & C2). rewrite R. destruct (cursor / (cols - 2)) as [|k].
    + injection C1 as <-. exists (lit "# " ++ c1). split; [reflexivity|]. exact C2.
    + exists (lit "  " ++ c). split; [|exact C2]. cbn [nth_error] in *. rewrite nth_error_map, C1. reflexivity.
Qed.
Print Assumptions C53_wrapped_display_partial.
(** The full statement says "no accepted width crashes": width two is accepted and divides by zero. *)
Theorem C53_wrapped_display_refuted : exists pr ord x tm a db, (forall n, fits_u16 (snd (tm n))) /\
  snd (interactive pr ord x tm a db []) = Crashed DivideByZero.
Proof.
  exists Release, (fun _ l => l), table, (fun _ => ((0, 0), 2)), (settings0 true), None. split; [intros n; reflexivity|reflexivity].
Qed.
Print Assumptions C53_wrapped_display_refuted.
Theorem C53_narrow_is_reported : forall pr alternate complete cols cursor start line, cols < 2 ->
  display_wrapped pr alternate complete cols cursor start line = Err (CalculatorEnvironmentError (lit "Window too narrow")).
Proof.
  intros. unfold display_wrapped. change (List.length (repeat c_space (List.length PROMPT_STR))) with 2.
  cbv zeta. destruct (Nat.ltb_spec cols 2); [reflexivity|lia].
Qed.
Print Assumptions C53_narrow_is_reported.
Example C53_example : display_wrapped Debug true false 6 9 (0, 7) (lit "1234567890") =
  Ok [MoveTo 0 7; ClearFromCursorDown; Print (lit "# "); Print (lit "1234"); MoveToNextLine 1; Print (lit "  "); Print (lit "5678");
      MoveToNextLine 1; Print (lit "  "); Print (lit "90"); MoveTo 3 9].
Proof. vm_compute. reflexivity. Qed.

(** ** C61 *)
(** From any state whatever, an exit key ends the session normally, and no other event does. *)
Theorem C61_exit_keys : forall pr ord x tm ev u, snd (ui_step pr ord x tm ev u) = Exited <-> exit_key ev.
Proof. exact ui_step_exit. Qed.
Print Assumptions C61_exit_keys.
(** A run ends normally only by an exit key, at the first one pressed. *)
Theorem C61_runs_end_by_exit_key : forall pr ord x tm a db evs,
  snd (interactive pr ord x tm a db evs) = Exited ->
  exists before ev after, evs = before ++ ev :: after /\ exit_key ev /\ Forall (fun e => ~ exit_key e) before.
Proof. exact interactive_exit. Qed.
Print Assumptions C61_runs_end_by_exit_key.
(** Exiting changes nothing: history, variables, settings and database are as they were. *)
Theorem C61_exit_changes_nothing : forall pr ord x tm ev u u' out, exit_key ev ->
  ui_step pr ord x tm ev u = (u', out, Exited) -> u' = u.
Proof. intros pr ord x tm ev u u' out [H|[H|H]] E; subst ev; injection E as <- _; destruct u; reflexivity. Qed.
Print Assumptions C61_exit_changes_nothing.
Example C61_example : snd (interactive Debug (fun _ l => l) table term80 (settings0 false) (Some disk0) (evs_demo ++ [EvKey (KChar 99%N) CONTROL])) = Exited.
Proof. vm_compute. reflexivity. Qed.
