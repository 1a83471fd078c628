(** ProofsRestart4.v -- the next session: Up brings back the stored lines. *)
From Verif Require Import Base Position Num TokenTypes Errors Token SavedData Variables InputHistory
  SyntaxTree Commands Calculate Editor Sessions Main SpecGrammar SpecEval SpecPrint SpecHistory SpecEditor SpecCalc SpecCommands SpecSession SpecData SpecMain.
From Verif Require Import ProofsEditor ProofsEditor2 ProofsEditor4 ProofsEval ProofsDb ProofsDb2 ProofsDb3 ProofsDb4 ProofsDb5 ProofsCalc ProofsCalc4 ProofsCalc7 ProofsCalc8
  ProofsSession ProofsSession2 ProofsMain ProofsRestart ProofsRestart2 ProofsRestart3.
From Coq Require Import String Lia.
Local Open Scope nat_scope.
Local Open Scope list_scope.

Lemma prev_at d st a id t b f : represents d st -> st_inputs st = a ++ (id, t) :: b -> ~ In true f ->
  get_prev_input_history (mkSD d (Some id) f) = (mkSD d (last_id a) (tl f), Ok (Some t)).
Proof.
  intros R E Cm. unfold get_prev_input_history, sd_call. cbn [sd_pos sd_faults sd_db]. destruct f as [|[|] f]; [|exfalso; apply Cm; left; reflexivity|].
  all: rewrite (rp_hist _ _ R), E, find_link; [cbn [sd_db sd_faults tl h_prev h_input]; destruct a; reflexivity|].
  all: pose proof (rp_incr _ _ R) as I; rewrite E in I; apply incr_app in I as (_ & _ & I); intros X; specialize (I id id X (or_introl eq_refl)); lia.
Qed.

(** having gone up through [b], with [a] still to come *)
Record gone_up (tm : terminal) (d : database) (a b : list (Z * str)) (u : ui) : Prop := mkGone
  { gu_inputs : u_inputs u = mkIH [] (rev (map snd b)) (Some [] :: repeat None (List.length b)) (List.length b) false;
    gu_db : exists f, u_db u = Some (mkSD d (last_id a) f) /\ ~ In true f;
    gu_cols : l_cols (u_line u) = snd (tm (u_count u));
    gu_inline : a_alternate_screen (u_args u) = false }.

Lemma nth_repeat_last n : nth_error (Some ([] : str) :: repeat None n) n = match n with 0 => Some (Some []) | _ => Some None end.
Proof. destruct n; [reflexivity|]. cbn. induction n; [reflexivity|exact IHn]. Qed.
Lemma nth_last {A} (l : list A) x : nth_error (l ++ [x]) (List.length l) = Some x.
Proof. rewrite nth_error_app2 by lia. rewrite Nat.sub_diag. reflexivity. Qed.
Lemma gone_line (b : list (Z * str)) : shown (mkIH [] (rev (map snd b)) (Some [] :: repeat None (List.length b)) (List.length b) false) = Ok (match b with [] => [] | e :: _ => snd e end).
Proof.
  unfold shown, current_line, nth_ok. cbn [ih_current ih_index ih_internal ih_db]. rewrite nth_repeat_last. destruct b as [|e b]; [reflexivity|]. cbn [List.length bind Nat.leb].
  replace (S (List.length b) - 0 - 1) with (List.length (rev (map snd b))) by (rewrite rev_length, map_length; lia). cbn [map rev]. rewrite nth_last. reflexivity.
Qed.
Lemma repeat_snoc {A} (v : A) n : repeat v n ++ [v] = v :: repeat v n.
Proof. induction n as [|n IH]; [reflexivity|]. cbn [repeat app]. f_equal. exact IH. Qed.
Lemma up_once pr ord x tm d st a e b u : represents d st -> st_inputs st = (a ++ [e]) ++ b -> ~ In c_newline (snd e) ->
  6 <= snd (tm (u_count u)) -> fits_u16 (snd (tm (u_count u))) -> gone_up tm d (a ++ [e]) b u ->
  exists u' out, ui_step pr ord x tm (EvKey KUp 0) u = (u', out, Waiting) /\ gone_up tm d a (e :: b) u' /\ u_count u' = u_count u /\
    l_cursor (u_line u') = List.length (snd e) /\ u_vars u' = u_vars u /\ u_args u' = u_args u.
Proof.
  intros R E Hn H6 Hu [Gi (f & Gd & Gf) Gc Ga]. unfold ui_step. cbn [handle_event]. rewrite Gi, Gd. destruct e as [id t]. cbn [snd] in *.
  unfold try_earlier. cbn [ih_internal ih_db ih_index ih_exhausted ih_current List.length]. rewrite rev_length, map_length, Nat.leb_refl.
  rewrite last_id_snoc. cbn [fst]. rewrite <- app_assoc in E. rewrite (prev_at d st a id t b f R E Gf).
  set (h' := go_earlier _).
  assert (Eh : h' = mkIH [] (rev (map snd ((id, t) :: b))) (Some [] :: repeat None (List.length ((id, t) :: b))) (List.length ((id, t) :: b)) false).
  { unfold h', go_earlier. cbn [ih_internal ih_db ih_index ih_exhausted ih_current map rev List.length snd]. rewrite repeat_length.
    replace (Nat.leb (S (List.length b)) (List.length b + 1)) with true by (symmetry; apply Nat.leb_le; lia).
    rewrite Nat.add_1_r. f_equal. cbn [app repeat]. f_equal. apply (repeat_snoc (@None str)). }
  pose proof (gone_line ((id, t) :: b)) as L. rewrite <- Eh in L. cbn [snd] in L. unfold shown in L. rewrite L. cbn [or_stop].
  rewrite Ga. destruct (redraw_inline pr (mkLine (List.length t) 0 (l_start (u_line u)) (l_cols (u_line u))) h' t L) as (off & out & D & _); cbn [l_cols l_cursor]; try rewrite Gc; auto.
  cbn [l_cols l_cursor l_start] in D. rewrite Gc in D. rewrite D. eexists _, _. split; [reflexivity|]. cbn [u_count u_line l_cursor u_vars u_args].
  split; [|auto]. constructor; cbn [u_inputs u_db u_line u_args l_cols u_count]; auto. exists (tl f). split; [reflexivity|]. destruct f; [exact Gf|]. intros X. apply Gf. right. exact X.
Qed.
Lemma up_many pr ord x tm d st : represents d st -> (forall e, In e (st_inputs st) -> ~ In c_newline (snd e)) ->
  forall mid a b u, st_inputs st = (a ++ mid) ++ b -> 6 <= snd (tm (u_count u)) -> fits_u16 (snd (tm (u_count u))) -> gone_up tm d (a ++ mid) b u ->
  exists u' out, run_events pr ord x tm (repeat (EvKey KUp 0) (List.length mid)) u = (u', out, Waiting) /\ gone_up tm d a (mid ++ b) u' /\ u_count u' = u_count u /\ u_vars u' = u_vars u /\ u_args u' = u_args u /\
    (mid <> [] -> l_cursor (u_line u') = List.length (match mid with [] => [] | e :: _ => snd e end)).
Proof.
  intros R Nl. induction mid as [|e mid IH] using rev_ind; intros a b u E H6 Hu G.
  - exists u, []. cbn. rewrite app_nil_r in G. split; [reflexivity|]. split; [exact G|]. split; [reflexivity|]. split; [reflexivity|]. split; [reflexivity|]. intros X; destruct (X eq_refl).
  - rewrite app_assoc in E, G.
    destruct (up_once pr ord x tm d st (a ++ mid) e b u R E) as (u1 & out1 & E1 & G1 & C1 & L1 & V1 & A1); auto.
    { apply Nl. rewrite E, !in_app_iff. left. right. left. reflexivity. }
    destruct (IH a (e :: b) u1) as (u2 & out2 & E2 & G2 & C2 & V2 & A2 & L2); try (rewrite C1; assumption); auto.
    { rewrite E, <- app_assoc. reflexivity. }
    exists u2, (out1 ++ out2). rewrite app_length, Nat.add_1_r. cbn [repeat run_events]. rewrite E1, E2.
    split; [reflexivity|]. split; [rewrite <- app_assoc; exact G2|]. split; [congruence|]. split; [congruence|]. split; [congruence|]. intros _. destruct mid as [|e0 mid]; [|apply L2; discriminate].
    cbn in E2. apply pair_equal_spec in E2 as [E2 _]. apply pair_equal_spec in E2 as [<- _]. exact L1.
Qed.
(** at the oldest *)
Lemma up_stays pr ord x tm d b n : forall u, gone_up tm d [] b u ->
  exists u', run_events pr ord x tm (repeat (EvKey KUp 0) n) u = (u', [], Waiting) /\ shown (u_inputs u') = shown (u_inputs u) /\ u_line u' = u_line u /\
    exists f, u_db u' = Some (mkSD d None f) /\ ~ In true f.
Proof.
  intros u [Gi (f & Gd & Gf) Gc Ga]. destruct n as [|n].
  { exists u. repeat split; auto. exists f. auto. }
  assert (S1 : forall u0 ex, u_inputs u0 = mkIH [] (rev (map snd b)) (Some [] :: repeat None (List.length b)) (List.length b) ex -> u_db u0 = Some (mkSD d None f) ->
     ui_step pr ord x tm (EvKey KUp 0) u0 = (mkUi (u_args u0) (u_vars u0) (Some (mkSD d None f)) (mkIH [] (rev (map snd b)) (Some [] :: repeat None (List.length b)) (List.length b) true) (u_line u0) (u_count u0), [], Waiting)).
  { intros u0 ex Ei Ed. unfold ui_step. cbn [handle_event]. rewrite Ei, Ed. unfold try_earlier. cbn [ih_internal ih_db ih_index ih_exhausted ih_current List.length].
    rewrite rev_length, map_length, Nat.leb_refl. destruct ex; [reflexivity|]. cbn. reflexivity. }
  assert (Sn : forall k u0, u_inputs u0 = mkIH [] (rev (map snd b)) (Some [] :: repeat None (List.length b)) (List.length b) true -> u_db u0 = Some (mkSD d None f) ->
     run_events pr ord x tm (repeat (EvKey KUp 0) k) u0 = (u0, [], Waiting)).
  { induction k as [|k IH]; intros u0 Ei Ed; [reflexivity|]. cbn [repeat run_events]. rewrite (S1 u0 true Ei Ed).
    rewrite IH by reflexivity. destruct u0 as [a0 v0 d0 h0 l0 c0]. cbn in *. subst. reflexivity. }
  cbn [repeat run_events]. rewrite (S1 u false Gi Gd), Sn by reflexivity. eexists. split; [reflexivity|]. cbn [u_inputs u_line u_db]. split; [|split; [reflexivity|exists f; auto]].
  rewrite Gi. unfold shown, current_line, nth_ok. reflexivity.
Qed.

Lemma ups_show pr ord x tm a sd k : a_alternate_screen a = false -> program_file (sd_db sd) -> ~ In true (sd_faults sd) -> sd_pos sd = last_id (inputs_of (sd_db sd)) ->
  (forall t, In t (texts_of (sd_db sd)) -> ~ In c_newline t) -> roomy tm 0 ->
  exists u out, interactive pr ord x tm a (Some sd) (repeat (EvKey KUp 0) k) = (u, out, Waiting) /\
    shown (u_inputs u) = Ok (nth (Nat.min k (List.length (texts_of (sd_db sd)))) ([] :: rev (texts_of (sd_db sd))) []) /\
    (forall t, shown (u_inputs u) = Ok t -> l_cursor (u_line u) = List.length t) /\
    exists sd', u_db u = Some sd' /\ sd_db sd' = sd_db sd.
Proof.
  intros Ai Pf Cm Ps Nl Rm. destruct (file_store _ Pf) as (st & Rp). pose proof (rep_inputs _ _ Rp) as Ei.
  unfold interactive, interactive_start, start_line. cbn [u_args u_inputs u_count u_vars u_db]. rewrite Ai. destruct (Rm 0) as (H6 & Hu & _).
  destruct (redraw_inline pr (mkLine 0 0 (fst (tm 0)) (snd (tm 0))) (ih_new true) [] eq_refl H6 Hu (Nat.le_0_l _) (fun x => x)) as (off & out0 & D0 & _).
  rewrite D0. cbn [l_cursor l_start l_cols]. match goal with |- context [run_events pr ord x tm _ ?w] => set (u1 := w) in * end.
  assert (G1 : gone_up tm (sd_db sd) (st_inputs st) [] u1).
  { constructor; try reflexivity; [|exact Ai]. exists (sd_faults sd). split; [|exact Cm]. unfold u1. cbn [u_db]. destruct sd as [d p f]. cbn in *. rewrite <- Ei, <- Ps. reflexivity. }
  set (len := List.length (texts_of (sd_db sd))). assert (El : len = List.length (st_inputs st)) by (unfold len, texts_of; rewrite map_length, Ei; reflexivity).
  set (j := Nat.min k len). set (old := firstn (len - j) (st_inputs st)). set (mid := skipn (len - j) (st_inputs st)).
  assert (Es : st_inputs st = (old ++ mid) ++ []) by (rewrite app_nil_r; unfold old, mid; symmetry; apply firstn_skipn).
  assert (Lm : List.length mid = j) by (unfold mid; rewrite skipn_length, <- El; unfold j; lia).
  destruct (up_many pr ord x tm (sd_db sd) st Rp) with (mid := mid) (a := old) (b := @nil (Z * str)) (u := u1) as (u2 & out2 & E2 & G2 & C2 & V2 & A2 & L2); auto.
  { intros e He. apply Nl. unfold texts_of. rewrite Ei. apply in_map. exact He. }
  { rewrite app_nil_r in Es. rewrite <- Es. exact G1. }
  rewrite app_nil_r in G2. rewrite Lm in E2.
  assert (Sh : shown (u_inputs u2) = Ok (match mid with [] => [] | e :: _ => snd e end)) by (rewrite (gu_inputs _ _ _ _ _ G2); apply gone_line).
  assert (Nt : match mid with [] => [] | e :: _ => snd e end = nth j ([] :: rev (texts_of (sd_db sd))) []).
  { destruct mid as [|e mid'] eqn:Em; [cbn in Lm; rewrite <- Lm; reflexivity|]. destruct j as [|j'] eqn:Ej; [discriminate Lm|].
    cbn [nth]. unfold texts_of. rewrite Ei, Es, app_nil_r, map_app, rev_app_distr. cbn [map rev]. rewrite <- app_assoc. rewrite app_nth2 by (rewrite rev_length, map_length; cbn in Lm; lia).
    rewrite rev_length, map_length. replace (j' - List.length mid') with 0 by (cbn in Lm; lia). reflexivity. }
  assert (Cu : forall t, shown (u_inputs u2) = Ok t -> l_cursor (u_line u2) = List.length t).
  { intros t Et. rewrite Sh in Et. injection Et as <-. destruct mid as [|e mid'] eqn:Em; [|apply L2; discriminate].
    cbn in Lm. rewrite <- Lm in E2. cbn in E2. apply pair_equal_spec in E2 as [E2 _]. apply pair_equal_spec in E2 as [<- _]. reflexivity. }
  destruct (Nat.leb_spec k len) as [Hk|Hk].
  - assert (j = k) as Ejk by (unfold j; lia). rewrite <- Ejk. rewrite E2. eexists _, _. split; [reflexivity|]. rewrite Sh, Nt. split; [|split].
    + fold len. replace (Nat.min j len) with j by (unfold j; lia). reflexivity.
    + rewrite <- Nt, <- Sh. exact Cu.
    + destruct (gu_db _ _ _ _ _ G2) as (f & -> & _). eexists. split; reflexivity.
  - assert (j = len) as Ejl by (unfold j; lia). assert (old = []) as Eo by (unfold old; rewrite Ejl, Nat.sub_diag; reflexivity). rewrite Eo in G2.
    destruct (up_stays pr ord x tm (sd_db sd) mid (k - j) u2 G2) as (u3 & E3 & S3 & L3 & f & D3 & _).
    assert (Er : repeat (EvKey KUp 0) k = repeat (EvKey KUp 0) j ++ repeat (EvKey KUp 0) (k - j)) by (rewrite <- repeat_app; f_equal; unfold j; lia).
    exists u3. rewrite Er, run_events_app, E2, E3. eexists. split; [reflexivity|]. split; [rewrite S3, Sh, Nt; reflexivity|].
    split; [intros t; rewrite S3, L3; apply Cu|]. rewrite D3. eexists. split; reflexivity.
Qed.
