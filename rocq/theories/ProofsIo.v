(** ProofsIo.v -- sessions on a failing terminal: what happened up to the failure is what happens without it. *)
From Verif Require Import Base Position Num TokenTypes Errors Token SavedData Variables InputHistory
  SyntaxTree Commands Calculate Editor Main Io SpecIo.
From Verif Require Import ProofsMain3.
From Coq Require Import String Lia.
Local Open Scope list_scope.

Lemma worked_refl f : all_worked f f.
Proof. exists 0. split; [reflexivity|intros []]. Qed.
Lemma firstn_add {A} (l : list A) n m : firstn (n + m) l = firstn n l ++ firstn m (skipn n l).
Proof. revert l. induction n as [|n IH]; intros l; [reflexivity|]. destruct l as [|a l]; [rewrite !firstn_nil; reflexivity|]. cbn. rewrite IH. reflexivity. Qed.
Lemma skipn_add {A} (l : list A) n m : skipn m (skipn n l) = skipn (n + m) l.
Proof. revert l. induction n as [|n IH]; intros l; [reflexivity|]. destruct l as [|a l]; [rewrite !skipn_nil; reflexivity|]. apply IH. Qed.
Lemma worked_trans f g h : all_worked f g -> all_worked g h -> all_worked f h.
Proof.
  intros (n & -> & N) (m & -> & M). exists (n + m). rewrite skipn_add. split; [reflexivity|]. rewrite firstn_add, in_app_iff. tauto.
Qed.
Lemma nth_skipn' {A} (l : list A) n m d : nth m (skipn n l) d = nth (n + m) l d.
Proof. revert l. induction n as [|n IH]; intros l; [reflexivity|]. destruct l as [|a l]; [destruct m; reflexivity|]. apply IH. Qed.
Lemma worked_failed f g h : all_worked f g -> last_failed g h -> last_failed f h.
Proof.
  intros (n & -> & N) (m & -> & M & L). exists (n + m). rewrite skipn_add. replace (n + S m) with (S (n + m)) by lia. split; [reflexivity|].
  rewrite firstn_add, in_app_iff. split; [tauto|]. rewrite nth_skipn' in L. exact L.
Qed.
Lemma use_spec f f' ok : io_use f = (f', ok) -> if ok then all_worked f f' else last_failed f f'.
Proof.
  unfold io_use. destruct f as [|b f]; cbn; intros [= <- <-].
  - exists 0. split; [reflexivity|intros []].
  - destruct b; cbn.
    + exists 0. split; [reflexivity|]. split; [intros []|reflexivity].
    + exists 1. split; [reflexivity|]. intros [[=]|[]].
Qed.
Lemma queue_spec cmds : forall f f' sent ok, io_queue cmds f = (f', sent, ok) ->
  if ok then all_worked f f' /\ sent = cmds else last_failed f f' /\ begins sent cmds.
Proof.
  induction cmds as [|c cmds IH]; intros f f' sent ok H; cbn [io_queue] in H.
  - injection H as <- <- <-. split; [apply worked_refl|reflexivity].
  - destruct (io_use f) as [f1 b] eqn:U. apply use_spec in U. destruct b.
    + destruct (io_queue cmds f1) as [[f2 s] k] eqn:Q. injection H as <- <- <-. apply IH in Q. destruct k; destruct Q as (Q1 & Q2).
      * split; [exact (worked_trans _ _ _ U Q1)|]. rewrite Q2. reflexivity.
      * split; [exact (worked_failed _ _ _ U Q1)|]. destruct Q2 as (more & ->). exists more. reflexivity.
    + injection H as <- <- <-. split; [exact U|]. exists (c :: cmds). reflexivity.
Qed.
Lemma send_spec cmds f f' sent ok : io_send cmds f = (f', sent, ok) ->
  if ok then all_worked f f' /\ sent = cmds else last_failed f f' /\ begins sent cmds.
Proof.
  unfold io_send. destruct (io_queue cmds f) as [[f1 s] k] eqn:Q. apply queue_spec in Q. destruct k; destruct Q as (Q1 & Q2).
  - destruct (io_use f1) as [f2 b] eqn:U. apply use_spec in U. intros [= <- <- <-]. destruct b.
    + split; [exact (worked_trans _ _ _ Q1 U)|exact Q2].
    + split; [exact (worked_failed _ _ _ Q1 U)|]. subst s. exists []. rewrite app_nil_r. reflexivity.
  - intros [= <- <- <-]. split; assumption.
Qed.
Lemma begins_app {A} (pre a b : list A) : begins a b -> begins (pre ++ a) (pre ++ b).
Proof. intros (more & ->). exists more. rewrite app_assoc. reflexivity. Qed.
Lemma begins_more {A} (a b c : list A) : begins a b -> begins a (b ++ c).
Proof. intros (more & ->). exists (more ++ c). rewrite app_assoc. reflexivity. Qed.
Lemma begins_nil {A} (a : list A) : begins [] a.
Proof. exists a. reflexivity. Qed.
Lemma begins_refl {A} (a : list A) : begins a a.
Proof. exists []. rewrite app_nil_r. reflexivity. Qed.

(** Same database handle, same settings. *)
Definition same_hands (u u' : ui) : Prop := u_db u = u_db u' /\ u_args u = u_args u'.
Lemma hands_refl u : same_hands u u.
Proof. split; reflexivity. Qed.

Lemma start_line_hands pr tm u : same_hands (fst (fst (start_line pr tm u))) u.
Proof. unfold start_line. destruct (display _ _ _ _ _) as [[l out]|e|p]; split; reflexivity. Qed.

Lemma io_start_line_spec pr tm u f : match io_start_line pr tm u f with (f', u', sent, e) =>
  let '(u1, out, st) := start_line pr tm u in
  (all_worked f f' /\ u' = u1 /\ sent = out /\ e = ending_of st) \/
  (last_failed f f' /\ e = FailedWith TerminalFailed /\ same_hands u' u1 /\ begins sent out) end.
Proof.
  unfold io_start_line. pose proof (start_line_hands pr tm u) as H. destruct (start_line pr tm u) as [[u1 out] st]. cbn [fst] in H.
  assert (H' : same_hands u u1) by (destruct H; split; congruence).
  destruct (io_use f) as [f1 b1] eqn:U1. apply use_spec in U1. destruct b1; [|right; auto using begins_nil].
  destruct (io_use f1) as [f2 b2] eqn:U2. apply use_spec in U2. destruct b2; [|right; eauto 6 using begins_nil, worked_failed].
  pose proof (worked_trans _ _ _ U1 U2) as U. destruct st; try (left; repeat split; assumption).
  destruct (io_send out f2) as [[f3 s] k] eqn:S. apply send_spec in S. destruct k; destruct S as (S1 & S2).
  - left. repeat split; eauto using worked_trans.
  - right. repeat split; eauto using worked_failed.
Qed.

(** What is sent before the calculation: the completed line. *)
Definition echo_sent (pr : profile) (u : ui) (out : list tcmd) : Prop :=
  exists l echo, display pr (a_alternate_screen (u_args u)) true (u_line u) (u_inputs u) = Ok (l, echo) /\ begins out echo.

Lemma io_finish_line_spec pr ord x tm u f : match io_finish_line pr ord x tm u f with (f', u', sent, e) =>
  let '(u1, out, st) := finish_line pr ord x tm u in
  (all_worked f f' /\ u' = u1 /\ sent = out /\ e = ending_of st) \/
  (last_failed f f' /\ e = FailedWith TerminalFailed /\
   ((same_hands u' u1 /\ begins sent out) \/ (u' = u /\ begins sent out /\ echo_sent pr u sent))) end.
Proof.
  unfold io_finish_line, finish_line. destruct (display pr _ true _ _) as [[l echo]|e|p] eqn:D; try (left; repeat split; apply worked_refl).
  destruct (io_send echo f) as [[f1 s1] k1] eqn:S1. apply send_spec in S1.
  destruct k1; destruct S1 as (S1 & S1').
  2:{ assert (X : echo_sent pr u s1) by (exists l, echo; auto).
      destruct (current_line (u_inputs u)) as [input|e|p].
      - destruct (calculate _ _ _ _ _) as [se' r]. destruct (render r) as [text|e|p].
        + destruct (start_line pr tm _) as [[u2 out3] st3]. right. split; [exact S1|]. split; [reflexivity|]. right. split; [reflexivity|]. split; [apply begins_more, S1'|exact X].
        + right. split; [exact S1|]. split; [reflexivity|]. right. auto.
        + right. split; [exact S1|]. split; [reflexivity|]. right. auto.
      - right. split; [exact S1|]. split; [reflexivity|]. right. auto.
      - right. split; [exact S1|]. split; [reflexivity|]. right. auto. }
  subst s1. destruct (current_line (u_inputs u)) as [input|e|p]; try (left; repeat split; assumption).
  destruct (calculate _ _ _ _ _) as [se' r]. destruct (render r) as [text|e|p]; try (left; repeat split; assumption).
  match goal with |- context [io_start_line pr tm ?v] => set (u2 := v) end.
  pose proof (start_line_hands pr tm u2) as H2.
  destruct (io_send (print_output _ text) f1) as [[f2 s2] k2] eqn:S2. apply send_spec in S2. destruct k2; destruct S2 as (S2 & S2').
  - subst s2. pose proof (io_start_line_spec pr tm u2 f2) as L. destruct (io_start_line pr tm u2 f2) as [[[f3 u3] s3] e3].
    destruct (start_line pr tm u2) as [[u4 out4] st4]. destruct L as [(L1 & -> & -> & ->)|(L1 & -> & L2 & L3)].
    + left. repeat split; eauto using worked_trans.
    + right. split; [eauto using worked_failed, worked_trans|]. split; [reflexivity|]. left. split; [exact L2|]. apply begins_app, begins_app, L3.
  - destruct (start_line pr tm u2) as [[u4 out4] st4]. cbn [fst] in H2. right. split; [eauto using worked_failed|]. split; [reflexivity|]. left.
    split; [destruct H2; split; congruence|]. apply begins_app, begins_more, S2'.
Qed.

Lemma ui_eta u : mkUi (u_args u) (u_vars u) (u_db u) (u_inputs u) (u_line u) (u_count u) = u.
Proof. destruct u. reflexivity. Qed.
Lemma enter_only ev l h db l' h' db' : handle_event ev l h db = (l', h', db', AEnter) ->
  (exists mods, ev = EvKey KEnter mods) /\ l' = l /\ h' = h /\ db' = db.
Proof.
  destruct ev as [code mods| | |]; cbn [handle_event]; try discriminate.
  destruct code; try discriminate.
  - unfold handle_char, or_stop. destruct (negb _); [discriminate|]. destruct (_ && _); [discriminate|]. destruct (_ && _).
    { destruct (current_line h); try discriminate. destruct (paren_jump _ _) as [[|]| |]; discriminate. }
    destruct (N.eqb _ _); [destruct (insert_char _ _ _); discriminate|]. destruct (negb _); [discriminate|]. destruct (insert_char _ _ _); discriminate.
  - destruct (Nat.eqb _ _); [discriminate|]. unfold or_stop. destruct (remove_char _ _); discriminate.
  - unfold or_stop. destruct (current_line h); try discriminate. destruct (Nat.leb _ _); [discriminate|]. destruct (remove_char _ _); discriminate.
  - destruct (try_earlier h db) as [[h1 db1] [[|]| |]]; try discriminate. unfold or_stop. destruct (current_line h1); discriminate.
  - destruct (try_later h) as [h1 [|]]; try discriminate. unfold or_stop. destruct (current_line h1); discriminate.
  - destruct (move_distance mods); discriminate.
  - destruct (move_distance mods); try discriminate. unfold or_stop. destruct (current_line h); discriminate.
  - unfold or_stop. destruct (current_line h); discriminate.
  - intros [= <- <- <-]. eauto.
Qed.

Lemma io_step_spec pr ord x tm ev u f : match io_step pr ord x tm ev u f with (f', u', sent, e) =>
  let '(u1, out, st) := ui_step pr ord x tm ev u in
  (all_worked f f' /\ u' = u1 /\ sent = out /\ e = ending_of st) \/
  (last_failed f f' /\ e = FailedWith TerminalFailed /\
   ((same_hands u' u1 /\ begins sent out) \/ ((exists mods, ev = EvKey KEnter mods) /\ u' = u /\ begins sent out /\ echo_sent pr u sent))) end.
Proof.
  unfold io_step, ui_step. destruct (handle_event ev (u_line u) (u_inputs u) (u_db u)) as [[[l' h'] db'] act] eqn:E. destruct act.
  - left. repeat split; apply worked_refl.
  - destruct (display pr _ false l' h') as [[l'' out]|e|p]; try (left; repeat split; apply worked_refl).
    destruct (io_send out f) as [[f1 s] k] eqn:S. apply send_spec in S. destruct k; destruct S as (S1 & S2); [left; auto|].
    right. split; [exact S1|]. split; [reflexivity|]. left. split; [apply hands_refl|exact S2].
  - apply enter_only in E. destruct E as (M & -> & -> & ->). rewrite ui_eta. pose proof (io_finish_line_spec pr ord x tm u f) as L.
    destruct (io_finish_line pr ord x tm u f) as [[[f' u'] sent] e]. destruct (finish_line pr ord x tm u) as [[u1 out] st].
    destruct L as [L|(L1 & L2 & [L3|L3])]; [left; exact L|right; auto|right; auto].
  - destruct (a_alternate_screen (u_args u)); [left; repeat split; apply worked_refl|].
    destruct (io_send _ f) as [[f1 s] k] eqn:S. apply send_spec in S. destruct k; destruct S as (S1 & S2); [left; auto|].
    right. split; [exact S1|]. split; [reflexivity|]. left. split; [apply hands_refl|exact S2].
  - left. repeat split; apply worked_refl.
  - left. repeat split; apply worked_refl.
Qed.

(** How a broken session compares with the sound one ([run]), the events read being a beginning of [evs]. *)
Definition broken_off (pr : profile) (run : list event -> ui * list tcmd * status) (evs : list event) (u' : ui) (sent : list tcmd) : Prop :=
  exists read, begins read evs /\ begins sent (snd (fst (run read))) /\
    (same_hands u' (fst (fst (run read))) \/
     (exists before mods u0 out0 tail, read = before ++ [EvKey KEnter mods] /\ run before = (u0, out0, Waiting) /\ same_hands u' u0 /\
        sent = out0 ++ tail /\ echo_sent pr u0 tail)).

Lemma io_events_spec pr ord x tm evs : forall u f, match io_events pr ord x tm evs u f with (f', u', sent, e) =>
  (all_worked f f' /\ (let '(u1, out, st) := run_events pr ord x tm evs u in u' = u1 /\ sent = out /\ e = ending_of st)) \/
  (last_failed f f' /\ e = FailedWith TerminalFailed /\ broken_off pr (fun evs => run_events pr ord x tm evs u) evs u' sent) end.
Proof.
  induction evs as [|ev evs IH]; intros u f; cbn [io_events].
  - destruct (io_use f) as [f1 b] eqn:U. apply use_spec in U. destruct b; [left; split; [exact U|]; cbn; auto|]. right. split; [exact U|]. split; [reflexivity|].
    exists []. split; [apply begins_nil|]. split; [apply begins_nil|]. left. apply hands_refl.
  - destruct (io_use f) as [f1 b] eqn:U. apply use_spec in U. destruct b.
    2:{ right. split; [exact U|]. split; [reflexivity|]. exists []. split; [apply begins_nil|]. split; [apply begins_nil|]. left. apply hands_refl. }
    pose proof (io_step_spec pr ord x tm ev u f1) as St. destruct (io_step pr ord x tm ev u f1) as [[[f2 u2] s2] e2].
    destruct (ui_step pr ord x tm ev u) as [[u3 out3] st3] eqn:S3. destruct St as [(W & -> & -> & ->)|(W & -> & B)].
    + pose proof (worked_trans _ _ _ U W) as UW. destruct st3; cbn [ending_of]; try (left; split; [exact UW|]; cbn [run_events]; rewrite S3; auto; fail).
      specialize (IH u3 f2). destruct (io_events pr ord x tm evs u3 f2) as [[[f4 u4] s4] e4]. destruct IH as [(I1 & I2)|(I1 & -> & I3)].
      * left. split; [eauto using worked_trans|]. cbn [run_events]. rewrite S3. destruct (run_events pr ord x tm evs u3) as [[u5 out5] st5].
        destruct I2 as (-> & -> & ->). auto.
      * right. split; [eauto using worked_failed|]. split; [reflexivity|]. destruct I3 as (read & (later & ->) & R2 & R3).
        exists (ev :: read). split; [exists later; reflexivity|]. cbn [run_events]. rewrite S3.
        destruct (run_events pr ord x tm read u3) as [[u5 out5] st5] eqn:R5. cbn [fst snd] in *. split; [apply begins_app, R2|].
        destruct R3 as [R3|(before & mods & u0 & out0 & tail & -> & R0 & R6 & -> & R7)]; [left; exact R3|]. right.
        exists (ev :: before), mods, u0, (out3 ++ out0), tail. split; [reflexivity|]. cbn [run_events]. rewrite S3, R0. rewrite app_assoc. auto.
    + right. split; [eauto using worked_failed|]. split; [destruct B as [(_ & _)|_]; reflexivity|].
      exists [ev]. split; [exists evs; reflexivity|]. cbn [run_events]. rewrite S3.
      assert (X : fst (match st3 with Waiting => (u3, out3 ++ [], Waiting) | _ => (u3, out3, st3) end) = (u3, out3)) by (destruct st3; rewrite ?app_nil_r; reflexivity).
      assert (X' : fst (match st3 with Waiting => let '(u'', out', st) := (u3, [], Waiting) in (u'', out3 ++ out', st) | Exited | Failed _ | Crashed _ => (u3, out3, st3) end) = (u3, out3)) by (destruct st3; rewrite ?app_nil_r; reflexivity).
      destruct B as [(B1 & B2)|((mods & ->) & -> & B3 & B4)].
      * destruct st3; cbn [fst snd]; rewrite ?app_nil_r; auto.
      * assert (Y : exists before mods0 u0 out0 tail, [EvKey KEnter mods] = before ++ [EvKey KEnter mods0] /\ run_events pr ord x tm before u = (u0, out0, Waiting) /\ same_hands u u0 /\ s2 = out0 ++ tail /\ echo_sent pr u0 tail).
        { exists [], mods, u, [], s2. split; [reflexivity|]. split; [reflexivity|]. split; [apply hands_refl|]. split; [reflexivity|exact B4]. }
        destruct st3; cbn [fst snd]; rewrite ?app_nil_r; auto.
Qed.

Lemma io_interactive_spec pr ord x tm a db evs f : match io_interactive pr ord x tm a db evs f with (f', u', sent, e) =>
  (all_worked f f' /\ (let '(u1, out, st) := interactive pr ord x tm a db evs in u' = u1 /\ sent = out /\ e = ending_of st)) \/
  (last_failed f f' /\ e = FailedWith TerminalFailed /\ broken_off pr (interactive pr ord x tm a db) evs u' sent) end.
Proof.
  unfold io_interactive. unfold interactive, interactive_start.
  match goal with |- context [io_start_line pr tm ?v f] => set (u0 := v) end.
  pose proof (io_start_line_spec pr tm u0 f) as L. destruct (io_start_line pr tm u0 f) as [[[f1 u1] s1] e1].
  destruct (start_line pr tm u0) as [[u2 out2] st2] eqn:S2. destruct L as [(L1 & -> & -> & ->)|(L1 & -> & L2 & L3)].
  - destruct st2; cbn [ending_of]; try (left; auto; fail).
    pose proof (io_events_spec pr ord x tm evs u2 f1) as R. destruct (io_events pr ord x tm evs u2 f1) as [[[f3 u3] s3] e3].
    destruct R as [(R1 & R2)|(R1 & -> & read & R2 & R3 & R4)].
    + left. split; [eauto using worked_trans|]. destruct (run_events pr ord x tm evs u2) as [[u5 out5] st5]. destruct R2 as (-> & -> & ->). auto.
    + right. split; [eauto using worked_failed|]. split; [reflexivity|]. exists read. split; [exact R2|]. cbv beta iota.
      destruct (run_events pr ord x tm read u2) as [[u5 out5] st5]. cbn [fst snd] in *. split; [apply begins_app, R3|].
      destruct R4 as [R4|(before & mods & u6 & out6 & tail & -> & R0 & R6 & -> & R7)]; [left; exact R4|]. right.
      exists before, mods, u6, (out2 ++ out6), tail. split; [reflexivity|]. rewrite R0, app_assoc. auto.
  - right. split; [exact L1|]. split; [destruct st2; reflexivity|]. exists []. split; [apply begins_nil|]. cbv beta iota.
    destruct st2; cbn [run_events fst snd]; rewrite ?app_nil_r; auto.
Qed.
