(** ProofsScroll.v -- scrolling back while others use the file (C87). *)
From Verif Require Import Base Position Num TokenTypes Errors Token SavedData Variables InputHistory
  SyntaxTree Commands Calculate Editor Sessions Main Io Together SpecGrammar SpecEval SpecHistory SpecEditor SpecCalc SpecCommands SpecSession SpecData SpecMain SpecTogether SpecScroll.
From Verif Require Import ProofsEval ProofsDb ProofsDb2 ProofsDb3 ProofsDb4 ProofsDb5 ProofsEditor ProofsEditor2 ProofsEditor4 ProofsCalc ProofsCalc4 ProofsCalc6 ProofsCalc7 ProofsCalc8 ProofsCalc9 ProofsCalc10 ProofsCalm ProofsCalm2 ProofsData
  ProofsSession ProofsSession2 ProofsMain ProofsMain2 ProofsRestart ProofsRestart2 ProofsIo ProofsTogether ProofsTogether2 ProofsKept2.
From Coq Require Import String Lia.
Local Open Scope nat_scope.
Local Open Scope list_scope.

(** The file, with a scrollback position in it that has [left] to go. *)
Definition pointed (pos : option Z) (left : list (Z * str)) (d : database) : Prop :=
  program_file d /\ cursor (inputs_of d) pos left.
Lemma pointed_call pos left c d r d' : pointed pos left d -> (forall x q id, c = SetVariable x q id -> canon q) ->
  c <> Open -> c <> PrevInput -> tx_of c d = Ok (r, d') -> pointed pos left d'.
Proof.
  intros (Pf & C) Hq Ho Hp E. split; [eapply file_call; eauto|]. destruct (file_store _ Pf) as (st & R).
  destruct (call_spec c d st R Hq Ho Hp) as (_ & R'). rewrite E in R'. cbn [tx_reply fst] in R'.
  rewrite (rep_inputs _ _ R'). apply spec_call_cursor; [apply (rp_incr _ _ R)|apply (rp_cap_pos _ _ R)|]. rewrite <- (rep_inputs _ _ R). exact C.
Qed.

(** Any submitted line keeps every scrollback position good. *)
Lemma calculate_points pr ord x input se se' r pos left sd : valid_settings (s_args se) -> env_ok (s_env se) -> iterates ord ->
  e_db (s_env se) = Some sd -> pointed pos left (sd_db sd) -> calculate pr ord x input se = (se', r) ->
  exists sd', e_db (s_env se') = Some sd' /\ sd_pos sd' = sd_pos sd /\ pointed pos left (sd_db sd').
Proof.
  intros Ha He Ho Ed Pt C. destruct (calculate_db _ _ _ _ se _ _ Ha He Ho C) as (_ & Db).
  destruct (e_db (s_env se')) as [sd'|] eqn:Ed'; [|specialize (Db eq_refl); congruence]. exists sd'. split; [reflexivity|].
  assert (K : kept (pointed pos left) (sd_pos sd) (e_db (s_env se'))).
  { eapply (calculate_kept (pointed pos left) (sd_pos sd) (pointed_call pos left)); [exact Ha|exact He| |exact C]. intros s0 E0. rewrite Ed in E0. injection E0 as <-. auto. }
  destruct (K sd' Ed') as (K1 & K2). auto.
Qed.

(** A session that was started when [stored] was in the file, and has a good scrollback. *)
Definition scrolls (stored : list (Z * str)) (db : option saved_data) (h : input_history) : Prop :=
  exists sd left fetched, db = Some sd /\ pointed (sd_pos sd) left (sd_db sd) /\ rev stored = fetched ++ left /\
    ih_db h = map snd fetched /\ (ih_exhausted h = true -> sd_pos sd = None).
Lemma scrolls_same stored db h h' : ih_db h' = ih_db h -> ih_exhausted h' = ih_exhausted h -> scrolls stored db h -> scrolls stored db h'.
Proof. intros E1 E2 (sd & lf & fe & A & B & C & D & E). exists sd, lf, fe. rewrite E1, E2. auto. Qed.
Lemma program_link d : program_file d -> d_hist d = link None (inputs_of d).
Proof. intros Pf. destruct (file_store _ Pf) as (st & R). rewrite (rep_inputs _ _ R). apply (rp_hist _ _ R). Qed.
Lemma prev_pointed sd sd' o left : pointed (sd_pos sd) left (sd_db sd) -> get_prev_input_history sd = (sd', o) ->
  match o with
  | Ok (Some t) => exists id rest, left = (id, t) :: rest /\ pointed (sd_pos sd') rest (sd_db sd')
  | Ok None => sd_pos sd' = None /\ pointed (sd_pos sd') left (sd_db sd')
  | _ => sd_pos sd' = sd_pos sd /\ pointed (sd_pos sd') left (sd_db sd')
  end.
Proof.
  intros (Pf & C) E. unfold get_prev_input_history in E. destruct (sd_pos sd) as [id|] eqn:Ep.
  2:{ apply pair_equal_spec in E as [<- <-]. rewrite Ep. split; [reflexivity|split; assumption]. }
  destruct (sd_call _ sd) as [sd1 o1] eqn:Ca. destruct (sd_call_cases _ _ _ _ Ca) as (P1 & _ & K).
  destruct K as [(a & -> & M)|[(Md & (e & ->))|(Md & (p & -> & _))]].
  - cbv beta in M. assert (E1 : a = find_hist (d_hist (sd_db sd)) id /\ sd_db sd1 = sd_db sd) by (split; congruence). destruct E1 as (-> & Ed).
    rewrite (program_link _ Pf) in E. destruct (cursor_fetch _ _ _ C) as [(t & rest & -> & _ & prev & next & F & C')|(F & C' & _)]; rewrite F in E;
      apply pair_equal_spec in E as [<- <-]; cbn [sd_pos sd_db h_prev h_input]; rewrite Ed.
    + exists id, rest. split; [reflexivity|split; assumption].
    + split; [reflexivity|split; assumption].
  - apply pair_equal_spec in E as [<- <-]. rewrite Md, P1, Ep. split; [reflexivity|split; assumption].
  - apply pair_equal_spec in E as [<- <-]. rewrite Md, P1, Ep. split; [reflexivity|split; assumption].
Qed.
Lemma earlier_scrolls stored h db h' db' r : scrolls stored db h -> try_earlier h db = (h', db', r) -> scrolls stored db' h'.
Proof.
  intros S. unfold try_earlier. destruct (Nat.leb _ _).
  2:{ intros E. apply pair_equal_spec in E as [E _]. apply pair_equal_spec in E as [<- <-]. eapply scrolls_same; [| |exact S]; reflexivity. }
  destruct (ih_exhausted h) eqn:X.
  { intros E. apply pair_equal_spec in E as [E _]. apply pair_equal_spec in E as [<- <-]. exact S. }
  destruct S as (sd & lf & fe & -> & B & C & D & _). destruct (get_prev_input_history sd) as [sd' o] eqn:G. pose proof (prev_pointed _ _ _ _ B G) as K.
  destruct o as [[t|]|e|p]; intros E; apply pair_equal_spec in E as [E _]; apply pair_equal_spec in E as [<- <-].
  - destruct K as (id & rest & -> & Pt). exists sd', rest, (fe ++ [(id, t)]). cbn [go_earlier ih_db ih_exhausted]. split; [reflexivity|]. split; [exact Pt|].
    split; [rewrite C, <- app_assoc; reflexivity|]. split; [rewrite map_app, D; reflexivity|discriminate].
  - destruct K as (Kp & Pt). exists sd', lf, fe. cbn [ih_db ih_exhausted]. auto.
  - destruct K as (Kp & Pt). exists sd', lf, fe. rewrite X. repeat split; auto; try apply Pt. discriminate.
  - destruct K as (Kp & Pt). exists sd', lf, fe. rewrite X. repeat split; auto; try apply Pt. discriminate.
Qed.
Lemma edit_disk {E} f h h' : @edit_current E f h = Ok h' -> ih_db h' = ih_db h /\ ih_exhausted h' = ih_exhausted h.
Proof.
  unfold edit_current, ensure_populated. intros E0.
  destruct (nth_ok (ih_current h) (ih_index h)) as [[s|]|?|?]; cbn [bind] in E0; try discriminate E0.
  - destruct (nth_ok (ih_current h) (ih_index h)) as [[s1|]|?|?]; cbn [bind] in E0; try discriminate E0.
    destruct (f s1) as [s2|?|?]; cbn [bind] in E0; try discriminate E0. injection E0 as <-. auto.
  - destruct (current_line h) as [line|?|?]; cbn [bind] in E0; try discriminate E0. cbn [ih_current ih_index] in E0.
    destruct (nth_ok _ _) as [[s1|]|?|?]; cbn [bind] in E0; try discriminate E0.
    destruct (f s1) as [s2|?|?]; cbn [bind] in E0; try discriminate E0. injection E0 as <-. auto.
Qed.
Lemma later_disk h h' b : try_later h = (h', b) -> ih_db h' = ih_db h /\ ih_exhausted h' = ih_exhausted h.
Proof. unfold try_later. destruct (ih_index h); intros E; apply pair_equal_spec in E as [<- _]; auto. Qed.
Definition scrolls_result (stored : list (Z * str)) (r : ev_result) : Prop := let '(_, h', db', _) := r in scrolls stored db' h'.
Lemma handle_event_scrolls stored ev l h db : scrolls stored db h -> scrolls_result stored (handle_event ev l h db).
Proof.
  intros S.
  assert (Ed : forall (r : outcome runtime_error input_history) l' a, (forall h', r = Ok h' -> ih_db h' = ih_db h /\ ih_exhausted h' = ih_exhausted h) -> scrolls_result stored (or_stop r l h db (fun h' => (l', h', db, a)))).
  { intros r l' a K. destruct r as [h'|e|p]; cbn; try exact S. destruct (K h' eq_refl). eapply scrolls_same; eauto. }
  assert (Cu : forall k, (forall t, scrolls_result stored (k t)) -> scrolls_result stored (or_stop (@current_line runtime_error h) l h db k)).
  { intros k K. destruct (@current_line runtime_error h) as [t|e|p]; cbn; [apply K|exact S|exact S]. }
  destruct ev as [code mods| |width|]; try exact S. cbn [handle_event]. destruct code as [c| | | | | | | | | |]; try exact S.
  - unfold handle_char. destruct (negb (is_ascii c)); [exact S|].
    destruct (N.eqb mods CONTROL && (N.eqb c 100 || N.eqb c 122 || N.eqb c 99)); [exact S|].
    destruct (N.eqb mods CONTROL && (N.eqb c 109 || N.eqb c 110)).
    { apply Cu. intros t. destruct (paren_jump t (l_cursor l)) as [[q|]|e|p]; exact S. }
    destruct (N.eqb mods SHIFT); [apply Ed; intros h' H; eapply edit_disk; exact H|]. destruct (negb (N.eqb mods 0)); [exact S|apply Ed; intros h' H; eapply edit_disk; exact H].
  - destruct (Nat.eqb_spec (l_cursor l) 0); [exact S|]. apply Ed; intros h' H; eapply edit_disk; exact H.
  - apply Cu. intros t. destruct (Nat.leb_spec (List.length t) (l_cursor l)); [exact S|]. apply Ed; intros h' H'; eapply edit_disk; exact H'.
  - destruct (try_earlier h db) as [[h' db'] r] eqn:E. pose proof (earlier_scrolls _ _ _ _ _ _ S E) as H'.
    destruct r as [[|]|e|p]; try exact H'. destruct (current_line h') as [?|?|?]; exact H'.
  - destruct (try_later h) as [h' b] eqn:E. destruct (later_disk _ _ _ E) as (D1 & D2). assert (H' : scrolls stored db h') by (eapply scrolls_same; eauto).
    destruct b; try exact H'. destruct (current_line h') as [?|?|?]; exact H'.
  - destruct (move_distance mods); exact S.
  - destruct (move_distance mods); [|exact S]. apply Cu. intros; exact S.
  - apply Cu. intros; exact S.
Qed.

(** after Enter: a new line *)
Definition untouched (h : input_history) : Prop := ih_current h = [Some []] /\ ih_index h = 0.
Lemma finished_line pr ord x input a h s se' r line : @current_line runtime_error h = Ok line -> calculate pr ord x input (mkSession a (Some h) s) = (se', r) ->
  s_inputs se' = Some (mkIH (ih_internal h ++ [line]) (ih_db h) [Some []] 0 (ih_exhausted h)).
Proof.
  intros L C. unfold calculate in C. cbn [s_inputs s_env s_args] in C. unfold input_finished in C. rewrite L in C.
  destruct (e_db s) as [sd|]; [destruct (add_to_input_history line sd) as [sd' [i|e|p]]|].
  - destruct (calculate_body _ _ _ _ _ _ _) as [[a1 s1] r1]. apply pair_equal_spec in C as [<- _]; reflexivity.
  - apply pair_equal_spec in C as [<- _]; reflexivity.
  - apply pair_equal_spec in C as [<- _]; reflexivity.
  - destruct (calculate_body _ _ _ _ _ _ _) as [[a1 s1] r1]. apply pair_equal_spec in C as [<- _]; reflexivity.
Qed.
Lemma start_line_parts pr tm u : let u' := fst (fst (start_line pr tm u)) in u_inputs u' = u_inputs u /\ u_db u' = u_db u.
Proof. unfold start_line. cbv zeta. destruct (display _ _ _ _ _) as [[? ?]|?|?]; auto. Qed.
(** What a step does to a file somebody else points into, and to the scrollback of the program itself. *)
Lemma finish_scrolls pr ord x tm stored u : (forall n, iterates (ord n)) -> ui_good u -> scrolls stored (u_db u) (u_inputs u) ->
  let r := finish_line pr ord x tm u in scrolls stored (u_db (fst (fst r))) (u_inputs (fst (fst r))) /\ (snd r = Waiting -> untouched (u_inputs (fst (fst r)))).
Proof.
  intros Ho (A & B & R) S. cbv zeta. unfold finish_line. cbv zeta. destruct (display _ _ _ _ _) as [[l1 out1]|e|p]; [|split; [exact S|discriminate]..].
  destruct (current_line (u_inputs u)) as [input|e|p] eqn:L; [|split; [exact S|discriminate]..].
  change (mkSession (u_args u) (Some (u_inputs u)) (mkEnv (Some (u_vars u)) (u_db u))) with (session_of u).
  destruct (calculate pr (ord (u_count u)) x input (session_of u)) as [se' r] eqn:C.
  pose proof (finished_line _ _ _ _ _ _ _ _ _ _ L C) as Eh. rewrite Eh.
  destruct S as (sd & lf & fe & Ed & Pt & Es & Ei & Ex).
  destruct (calculate_points _ _ _ _ (session_of u) _ _ _ lf sd A B (Ho _) Ed Pt C) as (sd' & Ed' & Ep & Pt').
  assert (S' : scrolls stored (e_db (s_env se')) (mkIH (ih_internal (u_inputs u) ++ [input]) (ih_db (u_inputs u)) [Some []] 0 (ih_exhausted (u_inputs u)))).
  { exists sd', lf, fe. rewrite Ep. cbn [ih_db ih_exhausted]. auto. }
  destruct (render r) as [text|e|p]; [|split; [exact S'|discriminate]..].
  match goal with |- context [start_line pr tm ?u0] => pose proof (start_line_parts pr tm u0) as (SI & SD); destruct (start_line pr tm u0) as [[u'' out3] st] end.
  cbn [fst snd u_inputs u_db] in *. rewrite SI, SD. split; [exact S'|]. intros _. split; reflexivity.
Qed.
Lemma step_scrolls pr ord x tm ev stored u : (forall n, iterates (ord n)) -> ui_good u -> scrolls stored (u_db u) (u_inputs u) ->
  let r := ui_step pr ord x tm ev u in scrolls stored (u_db (fst (fst r))) (u_inputs (fst (fst r))) /\
    (snd r = Waiting -> (exists mods, ev = EvKey KEnter mods) -> untouched (u_inputs (fst (fst r)))).
Proof.
  intros Ho G S. cbv zeta. unfold ui_step. pose proof (handle_event_scrolls stored ev (u_line u) (u_inputs u) (u_db u) S) as S'.
  pose proof (handle_event_file ev (u_line u) (u_inputs u) (u_db u)) as F.
  destruct (handle_event ev (u_line u) (u_inputs u) (u_db u)) as [[[l' h'] db'] act] eqn:E. cbn [scrolls_result] in S'.
  assert (Ne : act <> AEnter -> ~ exists mods, ev = EvKey KEnter mods) by (intros N (mods & ->); cbn in E; congruence).
  destruct act; try (split; [exact S'|intros _ X; destruct (Ne ltac:(discriminate) X)]).
  - destruct (display _ _ _ _ _) as [[l'' out]|e|p]; (split; [exact S'|intros _ X; destruct (Ne ltac:(discriminate) X)]).
  - match goal with |- context [finish_line pr ord x tm ?u0] => destruct (finish_scrolls pr ord x tm stored u0 Ho) as (K1 & K2) end.
    + destruct u as [a m db h l c]. cbn in *. eapply good_file; [exact F|exact G].
    + exact S'.
    + split; [exact K1|]. intros W _. exact (K2 W).
Qed.
(** Somebody else's step keeps the position good. *)
Lemma finish_points pr ord x tm pos left u : (forall n, iterates (ord n)) -> ui_good u -> (forall sd, u_db u = Some sd -> pointed pos left (sd_db sd)) ->
  forall sd, u_db (fst (fst (finish_line pr ord x tm u))) = Some sd -> pointed pos left (sd_db sd).
Proof.
  intros Ho (A & B & R) S. unfold finish_line. cbv zeta. destruct (display _ _ _ _ _) as [[l1 out1]|e|p]; [|exact S..].
  destruct (current_line (u_inputs u)) as [input|e|p] eqn:L; [|exact S..].
  change (mkSession (u_args u) (Some (u_inputs u)) (mkEnv (Some (u_vars u)) (u_db u))) with (session_of u).
  destruct (calculate pr (ord (u_count u)) x input (session_of u)) as [se' r] eqn:C.
  assert (S' : forall sd, e_db (s_env se') = Some sd -> pointed pos left (sd_db sd)).
  { intros sd' E'. destruct (u_db u) as [sd|] eqn:Ed.
    - destruct (calculate_points _ _ _ _ (session_of u) _ _ pos left sd A B (Ho _) Ed (S sd eq_refl) C) as (sd2 & Ed' & Ep & Pt'). congruence.
    - destruct (calculate_db _ _ _ _ (session_of u) _ _ A B (Ho _) C) as (Db & _). cbn [session_of s_env e_db] in Db. specialize (Db Ed). congruence. }
  destruct (render r) as [text|e|p]; [|exact S'..].
  match goal with |- context [start_line pr tm ?u0] => pose proof (start_line_parts pr tm u0) as (SI & SD); destruct (start_line pr tm u0) as [[u'' out3] st] end.
  cbn [fst snd u_inputs u_db] in *. rewrite SD. exact S'.
Qed.
Lemma step_points pr ord x tm ev pos left u : (forall n, iterates (ord n)) -> ui_good u -> (forall sd, u_db u = Some sd -> pointed pos left (sd_db sd)) ->
  forall sd, u_db (fst (fst (ui_step pr ord x tm ev u))) = Some sd -> pointed pos left (sd_db sd).
Proof.
  intros Ho G S. unfold ui_step. pose proof (handle_event_file ev (u_line u) (u_inputs u) (u_db u)) as F.
  destruct (handle_event ev (u_line u) (u_inputs u) (u_db u)) as [[[l' h'] db'] act] eqn:E.
  assert (S' : forall sd, db' = Some sd -> pointed pos left (sd_db sd)).
  { intros sd ->. destruct (u_db u) as [sd0|]; [|destruct F]. cbn in F. rewrite F. apply S. reflexivity. }
  destruct act; try exact S'.
  - destruct (display _ _ _ _ _) as [[l'' out]|e|p]; exact S'.
  - apply finish_points; [exact Ho| |exact S']. destruct u as [a m db h l c]. cbn in *. eapply good_file; [exact F|exact G].
Qed.

(** ** The desk *)
Definition scrolling (stored : list (Z * str)) (i : nat) (k : desk) : Prop :=
  exists u0 e, k_seat k i = Some (u0, e) /\ (e = Running -> scrolls stored (u_db (with_file (k_file k) u0)) (u_inputs u0)).
Lemma scrolling_start pr ord x tm k i a faults u : sound_desk k -> k_seat k i = None ->
  let k1 := fst (desk_step pr ord x tm (Begin i a (Some faults)) k) in sits k1 i u ->
  scrolling (inputs_of (k_file k)) i k1 /\ untouched (u_inputs u).
Proof.
  intros (M & _) N k1 (u0 & E & ->). subst k1. cbn [desk_step] in *. rewrite N in *. revert E.
  destruct (sd_open faults (k_file k)) as [file o] eqn:O. destruct (open_made _ _ _ _ M O) as [(_ & -> & ->)|(_ & sd & -> & Ed & Pf & Ei & _ & _ & Ps)]; [cbn [fst k_seat]; congruence|].
  unfold interactive_start in *.
  match goal with |- context [start_line pr (tm i) ?v] => pose proof (start_line_parts pr (tm i) v) as (SI & SD); destruct (start_line pr (tm i) v) as [[u1 out] st] end.
  intros E. cbn [fst snd u_inputs u_db k_seat k_file] in *. rewrite sit_same in E. injection E as -> Er.
  split; [|cbn [with_file u_inputs]; rewrite SI; split; reflexivity].
  exists u0, (ending_of st). cbn [k_seat]. rewrite sit_same. split; [reflexivity|]. intros _. cbn [k_file with_file u_db]. rewrite SD, SI.
  eexists _, (rev (inputs_of file)), []. split; [reflexivity|]. cbn [sd_pos sd_db]. rewrite Ps.
  split; [split; [exact Pf|]|].
  - destruct (file_store _ Pf) as (st0 & Rp). rewrite (rep_inputs _ _ Rp). apply cursor_open, (rp_incr _ _ Rp).
  - rewrite Ei. split; [reflexivity|]. split; [reflexivity|]. cbn. discriminate.
Qed.
Lemma scrolls_point stored k i : scrolling stored i k -> forall u0, k_seat k i = Some (u0, Running) ->
  exists pos left, pointed pos left (k_file k) /\
    forall d, pointed pos left d -> scrolls stored (u_db (with_file d u0)) (u_inputs u0).
Proof.
  intros (u1 & e & E & S) u0 E0. assert (X : u1 = u0 /\ e = Running) by (split; congruence). destruct X as (-> & ->). specialize (S eq_refl). destruct S as (sd & lf & fe & Ed & Pt & A & B & C).
  cbn [with_file u_db] in *. destruct (u_db u0) as [sd0|]; [|discriminate Ed]. injection Ed as <-. cbn [sd_pos sd_db] in *.
  exists (sd_pos sd0), lf. split; [exact Pt|]. intros d Pd. eexists _, lf, fe. split; [reflexivity|]. cbn [sd_pos sd_db]. auto.
Qed.
Lemma scrolling_step pr ord x tm mv stored i k : (forall i n, iterates (ord i n)) -> proper_move mv -> sound_desk k -> scrolling stored i k ->
  scrolling stored i (fst (desk_step pr ord x tm mv k)).
Proof.
  intros Ho Pm (M & Sd) S. pose proof S as (u0 & e & E & S0).
  assert (Oth : forall d f, (forall pos left, pointed pos left (k_file k) -> pointed pos left d) -> f i = k_seat k i -> scrolling stored i (mkDesk d f)).
  { intros d f Pd Ef. exists u0, e. cbn [k_seat k_file]. rewrite Ef. split; [exact E|]. intros ->.
    destruct (scrolls_point _ _ _ S u0 E) as (pos & lf & Pt & K). apply K, Pd, Pt. }
  destruct mv as [j a wanted|j ev]; cbn [desk_step].
  - destruct (k_seat k j) eqn:Sj; [exact S|]. assert (Nj : i <> j) by (intros ->; congruence). destruct wanted as [faults|].
    + destruct (sd_open faults (k_file k)) as [file o] eqn:O.
      assert (Pf : forall pos left, pointed pos left (k_file k) -> pointed pos left file).
      { intros pos left (Pf & C). rewrite (reopen _ _ _ _ Pf O). split; assumption. }
      destruct o as [sd|e0|p]; [destruct (interactive_start pr (tm j) a (Some sd)) as [[u out] st]| |]; apply Oth; auto. apply sit_other, Nj.
    + destruct (interactive_start pr (tm j) a None) as [[u out] st]. apply Oth; auto. apply sit_other, Nj.
  - destruct (k_seat k j) as [[uj ej]|] eqn:Sj; [|exact S]. destruct ej; try exact S.
    destruct (Sd j uj Running Sj) as (_ & G). specialize (G eq_refl).
    destruct (Nat.eq_dec j i) as [->|N].
    + assert (X : u0 = uj /\ e = Running) by (split; congruence). destruct X as (-> & ->). specialize (S0 eq_refl).
      destruct (step_scrolls pr (ord i) x (tm i) ev stored (with_file (k_file k) uj) (Ho i) G S0) as (K & _).
      destruct (ui_step pr (ord i) x (tm i) ev (with_file (k_file k) uj)) as [[u' out] st]. cbn [fst snd] in *.
      exists u', (ending_of st). cbn [k_seat k_file]. rewrite sit_same, with_file_of. auto.
    + pose proof (fun pos left => step_points pr (ord j) x (tm j) ev pos left (with_file (k_file k) uj) (Ho j) G) as Sp.
      destruct (ui_step pr (ord j) x (tm j) ev (with_file (k_file k) uj)) as [[u' out] st]. cbn [fst snd] in *.
      apply Oth; [|apply sit_other; auto]. intros pos left Pt. unfold file_of. destruct (u_db u') as [sd'|] eqn:D; [|exact Pt].
      apply (Sp pos left); [|reflexivity]. intros sd. cbn. destruct (u_db uj); [|discriminate]. intros [= <-]. exact Pt.
Qed.
Lemma scrolling_run pr ord x tm moves stored i : (forall i n, iterates (ord i n)) -> forall k, Forall proper_move moves -> sound_desk k -> scrolling stored i k ->
  scrolling stored i (desk_run pr ord x tm moves k).
Proof.
  intros Ho. induction moves as [|mv moves IH]; intros k P S Sc; [exact Sc|]. cbn [desk_run]. inversion P; subst. apply IH; [assumption|apply sound_step; assumption|apply scrolling_step; assumption].
Qed.

(** What it means for what can be seen. *)
Lemma cursor_none inputs left : cursor inputs None left -> forall e, In e left -> ~ In (fst e) (map fst inputs).
Proof.
  intros (dr & k & nw & E1 & E2 & Hi & P1 & _) e Ie X. destruct k as [|e0 k].
  - cbn in E2. subst nw. apply incr_app in Hi as (_ & _ & Hi). specialize (Hi (fst e) (fst e)). assert (In (fst e) (map fst (rev left))) by (apply in_map; apply -> in_rev; exact Ie). specialize (Hi H X). lia.
  - specialize (P1 ltac:(discriminate)). symmetry in P1. apply last_id_none in P1. discriminate P1.
Qed.
Lemma scrolling_seen stored i k u : scrolling stored i k -> sits k i u ->
  exists n, n <= List.length stored /\ ih_db (u_inputs u) = firstn n (rev (map snd stored)) /\
    (ih_exhausted (u_inputs u) = true -> gone_beyond n stored (k_file k)).
Proof.
  intros (u1 & e & E & S) (u0 & E0 & ->). assert (X : u1 = u0 /\ e = Running) by (split; congruence). destruct X as (-> & ->).
  destruct (S eq_refl) as (sd & lf & fe & Ed & (Pf & C) & A & B & D). exists (List.length fe).
  assert (Ek : sd_db sd = k_file k) by (cbn in Ed; destruct (u_db u0); [injection Ed as <-; reflexivity|discriminate Ed]).
  assert (L : List.length stored = List.length fe + List.length lf) by (rewrite <- rev_length, A, app_length; reflexivity).
  split; [lia|]. cbn [with_file u_inputs]. split.
  - rewrite B, <- map_rev, A, map_app, firstn_app, map_length, Nat.sub_diag. cbn [firstn]. rewrite app_nil_r. symmetry. apply firstn_all2. rewrite map_length. lia.
  - intros Ex. specialize (D Ex). rewrite D, Ek in C. intros e0 I0. rewrite A, skipn_app, skipn_all, Nat.sub_diag in I0. cbn in I0. exact (cursor_none _ _ C _ I0).
Qed.

(** ** Walking up *)
Definition walked (m : nat) (internal : list str) (h : input_history) : Prop :=
  ih_internal h = internal /\ ih_current h = Some [] :: repeat None (ih_index h) /\ ih_index h <= List.length (recorded h) /\ ih_index h <= m /\
  (ih_index h < m -> ih_exhausted h = true /\ ih_index h = List.length (recorded h)).
Lemma walked_start h : untouched h -> walked 0 (ih_internal h) h.
Proof. intros (A & B). split; [reflexivity|]. rewrite A, B. split; [reflexivity|]. split; [lia|]. split; [lia|]. lia. Qed.
Lemma recorded_length h : List.length (recorded h) = List.length (ih_internal h) + List.length (ih_db h).
Proof. unfold recorded. rewrite app_length, rev_length. reflexivity. Qed.
Lemma go_walked h : ih_current h = Some [] :: repeat None (ih_index h) ->
  go_earlier h = mkIH (ih_internal h) (ih_db h) (Some [] :: repeat None (S (ih_index h))) (S (ih_index h)) (ih_exhausted h).
Proof.
  intros E. unfold go_earlier. rewrite E. cbn [List.length]. rewrite repeat_length, Nat.add_1_r, Nat.leb_refl. cbn [app]. f_equal. f_equal.
  apply (ProofsRestart4.repeat_snoc (@None str)).
Qed.
Lemma up_walked m internal h db h' db' b : walked m internal h -> try_earlier h db = (h', db', Ok b) -> walked (S m) internal h'.
Proof.
  intros (A & B & C & D & F). pose proof (recorded_length h) as RL. unfold try_earlier. rewrite <- RL. destruct (Nat.leb_spec (List.length (recorded h)) (ih_index h)) as [L|L].
  2:{ intros E. apply pair_equal_spec in E as [E _]. apply pair_equal_spec in E as [<- _]. rewrite (go_walked h B). split; [exact A|]. cbn [ih_internal ih_current ih_index ih_exhausted].
      split; [reflexivity|]. change (recorded _) with (recorded h). split; [lia|]. split; [lia|]. intros X. assert (X' : ih_index h < m) by lia. specialize (F X') as (_ & F). lia. }
  destruct (ih_exhausted h) eqn:X.
  { intros E. apply pair_equal_spec in E as [E _]. apply pair_equal_spec in E as [<- _]. split; [exact A|]. split; [exact B|]. split; [exact C|]. split; [lia|]. intros _. split; [exact X|lia]. }
  destruct db as [sd|]; [|discriminate]. assert (Em : ih_index h = m) by (destruct (Nat.eq_dec (ih_index h) m) as [Y|Y]; [exact Y|destruct (F ltac:(lia)) as (Z & _); discriminate Z]).
  destruct (get_prev_input_history sd) as [sd' [[t|]|e|p]]; intros E; try discriminate E; apply pair_equal_spec in E as [E _]; apply pair_equal_spec in E as [<- _].
  - match goal with |- walked _ _ (go_earlier ?h0) => rewrite (go_walked h0 B) end. split; [exact A|]. cbn [ih_internal ih_current ih_index ih_exhausted ih_db].
    split; [reflexivity|]. rewrite recorded_length. cbn [ih_internal ih_db]. rewrite app_length. cbn [List.length]. lia.
  - split; [exact A|]. split; [exact B|]. rewrite recorded_length. cbn [ih_internal ih_db ih_index ih_exhausted]. lia.
Qed.
Lemma nth_ok_nth {E A} (l : list A) n d : n < List.length l -> @nth_ok E A l n = Ok (nth n l d).
Proof. intros L. unfold nth_ok. rewrite (nth_error_nth' l d L). reflexivity. Qed.
Lemma walked_shown m internal h : walked m internal h -> shown h = Ok (nth (ih_index h) ([] :: recorded h) []).
Proof.
  intros (A & B & C & D & F). unfold shown, current_line. rewrite B. unfold nth_ok at 1. rewrite ProofsRestart4.nth_repeat_last. destruct (ih_index h) as [|n] eqn:En; [reflexivity|].
  cbn [bind nth]. rewrite recorded_length in C. unfold recorded. destruct (Nat.leb_spec (S n) (List.length (ih_internal h))) as [L|L].
  - rewrite app_nth1 by (rewrite rev_length; lia). rewrite rev_nth by lia. apply (nth_ok_nth (ih_internal h)). lia.
  - rewrite app_nth2 by (rewrite rev_length; lia). rewrite rev_length.
    etransitivity; [apply (nth_ok_nth (ih_db h) _ []); lia|]. f_equal. f_equal. lia.
Qed.

Lemma up_step pr ord x tm mods m internal u u' out : walked m internal (u_inputs u) -> ui_step pr ord x tm (EvKey KUp mods) u = (u', out, Waiting) ->
  walked (S m) internal (u_inputs u').
Proof.
  intros W E. unfold ui_step in E. cbn [handle_event] in E. destruct (try_earlier (u_inputs u) (u_db u)) as [[h' db'] r] eqn:T.
  destruct r as [[|]|e|p]; [| | |].
  - pose proof (up_walked _ _ _ _ _ _ _ W T) as W'. destruct (current_line h') as [t|e|p]; cbn [or_stop] in E.
    + destruct (display _ _ _ _ _) as [[l'' o]|e|p]; try discriminate E. injection E as <- _. exact W'.
    + discriminate E.
    + discriminate E.
  - pose proof (up_walked _ _ _ _ _ _ _ W T) as W'. injection E as <- _. exact W'.
  - discriminate E.
  - discriminate E.
Qed.
Lemma only_up_cons i mv moves : only_up i (mv :: moves) -> only_up i [mv] /\ only_up i moves.
Proof. intros H. split; intros mv' I; apply H; [destruct I as [<-|[]]; left; reflexivity|right; exact I]. Qed.
Lemma ups_run pr ord x tm i moves : forall k m internal, only_up i moves -> (exists s, k_seat k i = Some s) -> (forall u, k_seat k i = Some (u, Running) -> walked m internal (u_inputs u)) ->
  forall u, k_seat (desk_run pr ord x tm moves k) i = Some (u, Running) -> walked (presses i moves + m) internal (u_inputs u).
Proof.
  induction moves as [|mv moves IH]; intros k m internal Ou (s & Es) W u E; [apply W; exact E|]. cbn [desk_run] in E. destruct (only_up_cons _ _ _ Ou) as (O1 & O2).
  assert (St : exists s', k_seat (fst (desk_step pr ord x tm mv k)) i = Some s').
  { destruct mv as [j a wanted|j ev]; cbn [desk_step].
    - destruct (k_seat k j) eqn:Sj; [eauto|]. assert (N : i <> j) by (intros ->; congruence). destruct wanted as [faults|].
      + destruct (sd_open faults (k_file k)) as [file [sd|?|?]]; [destruct (interactive_start pr (tm j) a (Some sd)) as [[u0 out] st]| |]; cbn; eauto. rewrite sit_other by exact N. eauto.
      + destruct (interactive_start pr (tm j) a None) as [[u0 out] st]. cbn. rewrite sit_other by exact N. eauto.
    - destruct (k_seat k j) as [[uj []]|]; eauto. destruct (ui_step _ _ _ _ _ _) as [[u' out] st]. cbn.
      destruct (Nat.eq_dec i j) as [->|N]; [rewrite sit_same; eauto|rewrite sit_other by exact N; eauto]. }
  destruct (match mv with Press j _ => Nat.eqb j i | Begin _ _ _ => false end) eqn:Mi.
  - destruct mv as [|j ev]; [discriminate Mi|]. apply Nat.eqb_eq in Mi as ->. destruct (O1 _ (or_introl eq_refl) eq_refl) as (mods & ->).
    cbn [presses filter]. unfold presses. cbn [filter]. rewrite Nat.eqb_refl. cbn [List.length]. fold (presses i moves). rewrite Nat.add_succ_comm.
    eapply IH; [exact O2|exact St| |exact E]. intros u1. cbn [desk_step]. rewrite Es. destruct s as [u0 e0]. destruct e0; cbn [fst]; try (rewrite Es; discriminate).
    destruct (ui_step pr (ord i) x (tm i) (EvKey KUp mods) (with_file (k_file k) u0)) as [[u' out] st] eqn:Us. cbn [fst k_seat]. rewrite sit_same. intros [= <- Est].
    destruct st; try discriminate Est. eapply up_step; [|exact Us]. cbn [with_file u_inputs]. apply W. exact Es.
  - assert (Pz : presses i (mv :: moves) = presses i moves) by (unfold presses; cbn [filter]; rewrite Mi; reflexivity). rewrite Pz.
    eapply IH; [exact O2|exact St| |exact E]. intros u1 E1. apply W. rewrite <- E1. clear E E1 IH W O1 O2 Ou St Pz.
    destruct mv as [j a wanted|j ev]; cbn [desk_step].
    + destruct (k_seat k j) eqn:Sj; [reflexivity|]. assert (N : i <> j) by (intros ->; congruence). destruct wanted as [faults|].
      * destruct (sd_open faults (k_file k)) as [file [sd|?|?]]; [destruct (interactive_start pr (tm j) a (Some sd)) as [[u0 out] st]| |]; cbn; try reflexivity. rewrite sit_other by exact N. reflexivity.
      * destruct (interactive_start pr (tm j) a None) as [[u0 out] st]. cbn. rewrite sit_other by exact N. reflexivity.
    + apply Nat.eqb_neq in Mi. destruct (k_seat k j) as [[uj []]|]; try reflexivity. destruct (ui_step _ _ _ _ _ _) as [[u' out] st]. cbn. rewrite sit_other by auto. reflexivity.
Qed.

Lemma desk_run_app pr ord x tm a b : forall k, desk_run pr ord x tm (a ++ b) k = desk_run pr ord x tm b (desk_run pr ord x tm a k).
Proof. induction a as [|mv a IH]; intros k; [reflexivity|]. apply IH. Qed.
Lemma walked_here pr ord x tm i moves k1 u1 k2 u2 : (forall i n, iterates (ord i n)) -> Forall proper_move moves -> sound_desk k1 ->
  forall stored, scrolling stored i k1 -> sits k1 i u1 -> untouched (u_inputs u1) -> at_new_line i moves ->
  k2 = desk_run pr ord x tm moves k1 -> k_seat k2 i = Some (u2, Running) -> untouched (u_inputs u2).
Proof.
  intros Ho P Sd stored Sc (u0 & E1 & ->) Un [->|(earlier & mods & ->)] -> E2.
  - cbn in E2. rewrite E1 in E2. injection E2 as <-. exact Un.
  - rewrite desk_run_app in E2. apply Forall_app in P as [P _].
    pose proof (scrolling_run pr ord x tm earlier stored i Ho k1 P Sd Sc) as Sc'. pose proof (sound_run pr ord x tm earlier Ho k1 P Sd) as Sd'.
    set (k := desk_run pr ord x tm earlier k1) in *. cbn [desk_run desk_step] in E2. destruct Sc' as (v & e & Ev & Sv). rewrite Ev in E2.
    destruct e; cbn [fst] in E2; try congruence. specialize (Sv eq_refl). destruct Sd' as (_ & Sd'). destruct (Sd' i v _ Ev) as (_ & G).
    destruct (step_scrolls pr (ord i) x (tm i) (EvKey KEnter mods) stored (with_file (k_file k) v) (Ho i) (G eq_refl) Sv) as (_ & K).
    destruct (ui_step pr (ord i) x (tm i) (EvKey KEnter mods) (with_file (k_file k) v)) as [[u' out] st]. cbn [fst snd k_seat] in *. rewrite sit_same in E2. injection E2 as <- Es.
    apply K; [destruct st; [reflexivity|discriminate Es..]|eauto].
Qed.
Lemma nth_firstn_app {A} (a b : list A) n j d : j <= List.length a + n -> n <= List.length b -> nth j (d :: a ++ firstn n b) d = nth j (d :: a ++ b) d.
Proof.
  intros L Ln. destruct j as [|j]; [reflexivity|]. cbn [nth]. destruct (Nat.ltb_spec j (List.length a)) as [H|H].
  - rewrite !app_nth1 by exact H. reflexivity.
  - rewrite !app_nth2 by exact H. rewrite <- (firstn_skipn n b) at 2. rewrite app_nth1; [reflexivity|]. rewrite firstn_length. lia.
Qed.
Lemma scroll_up pr ord x tm before i a faults u1 moves ups d u : (forall i n, iterates (ord i n)) ->
  Forall proper_move (before ++ Begin i a (Some faults) :: moves ++ ups) -> made_file d ->
  let k0 := desk_run pr ord x tm before (empty_desk d) in
  let k1 := fst (desk_step pr ord x tm (Begin i a (Some faults)) k0) in
  let k := desk_run pr ord x tm (moves ++ ups) k1 in
  k_seat k0 i = None -> sits k1 i u1 -> at_new_line i moves -> only_up i ups -> sits k i u ->
  let lines := rev (submitted u) ++ rev (texts_of (k_file k0)) in
  exists j, shown (u_inputs u) = Ok (nth j ([] :: lines) []) /\ j <= presses i ups /\ j <= List.length lines /\
    (j < presses i ups -> List.length (submitted u) <= j /\ gone_beyond (j - List.length (submitted u)) (inputs_of (k_file k0)) (k_file k)).
Proof.
  intros Ho P M k0 k1 k N S1 Nl Ou S lines. apply Forall_app in P as [P Pm]. inversion Pm as [|? ? Pb Pmu]; subst.
  assert (Sd : sound_desk k0) by (apply sound_run; [assumption..|apply sound_empty, M]).
  destruct (scrolling_start pr ord x tm k0 i a faults u1 Sd N S1) as (Sc & Un).
  assert (Sd1 : sound_desk k1) by (apply sound_step; assumption).
  assert (Sk : scrolling (inputs_of (k_file k0)) i k) by (apply scrolling_run; assumption).
  destruct (scrolling_seen _ _ _ _ Sk S) as (n & Ln & E & Gn).
  assert (W : exists internal, walked (presses i ups) internal (u_inputs u)).
  { destruct S as (v & Ev & ->). unfold k in Ev. rewrite desk_run_app in Ev. apply Forall_app in Pmu as [Pm1 Pm2].
    pose proof (scrolling_run pr ord x tm moves _ i Ho k1 Pm1 Sd1 Sc) as (v2 & e2 & E2 & _).
    exists (ih_internal (u_inputs v2)). rewrite <- (Nat.add_0_r (presses i ups)). change (u_inputs (with_file (k_file k) v)) with (u_inputs v).
    eapply (ups_run pr ord x tm i ups (desk_run pr ord x tm moves k1)); [exact Ou|eauto| |exact Ev].
    intros v3 E3. assert (v3 = v2) by congruence. subst v3. apply walked_start.
    eapply (walked_here pr ord x tm i moves k1 u1 _ v2 Ho Pm1 Sd1 _ Sc S1 Un Nl eq_refl). exact E3. }
  destruct W as (internal & W). pose proof (walked_shown _ _ _ W) as Sh. destruct W as (_ & _ & W1 & W2 & W3).
  assert (Er : recorded (u_inputs u) = rev (submitted u) ++ firstn n (rev (texts_of (k_file k0)))) by (unfold recorded; rewrite E; reflexivity).
  assert (Lo : List.length (rev (texts_of (k_file k0))) = List.length (inputs_of (k_file k0))) by (unfold texts_of; rewrite rev_length, map_length; reflexivity).
  assert (Lr : List.length (recorded (u_inputs u)) = List.length (submitted u) + n) by (rewrite Er, app_length, rev_length, firstn_length, Lo; lia).
  exists (ih_index (u_inputs u)). split; [|split; [exact W2|split]].
  - rewrite Sh, Er. f_equal. apply nth_firstn_app; [rewrite rev_length; lia|]. eapply Nat.le_trans; [exact Ln|]. apply Nat.eq_le_incl. symmetry. exact Lo.
  - unfold lines. rewrite app_length, rev_length. pose proof Lo as Lo'. unfold texts_of in *. lia.
  - intros L. destruct (W3 L) as (Ex & Ei). split; [lia|]. replace (ih_index (u_inputs u) - List.length (submitted u)) with n by lia. apply Gn, Ex.
Qed.
Lemma scroll_all pr ord tm before i a faults u1 moves ups d u : (forall i n, iterates (ord i n)) ->
  Forall proper_move (before ++ Begin i a (Some faults) :: moves ++ ups) -> Forall calm_move (before ++ Begin i a (Some faults) :: moves ++ ups) -> made_file d ->
  let k0 := desk_run pr ord the_executor tm before (empty_desk d) in
  let k1 := fst (desk_step pr ord the_executor tm (Begin i a (Some faults)) k0) in
  let k := desk_run pr ord the_executor tm (moves ++ ups) k1 in
  let new := all_news pr ord the_executor tm (moves ++ ups) k1 in
  k_seat k0 i = None -> sits k1 i u1 -> at_new_line i moves -> only_up i ups -> sits k i u ->
  (forall line radix, In line new -> ~ is_histcap radix line) -> room_for (k_file k1) (List.length new) ->
  let lines := rev (submitted u) ++ rev (texts_of (k_file k0)) in
  shown (u_inputs u) = Ok (nth (Nat.min (presses i ups) (List.length lines)) ([] :: lines) []).
Proof.
  intros Ho P C M k0 k1 k new N S1 Nl Ou S Nh R lines.
  destruct (scroll_up pr ord the_executor tm before i a faults u1 moves ups d u Ho P M N S1 Nl Ou S) as (j & Sh & J1 & J2 & J3).
  fold k0 in Sh, J2, J3. fold k1 in J3. fold k in J3. rewrite Sh. f_equal. f_equal.
  apply Forall_app in P as [P Pm]. inversion Pm as [|? ? Pb Pmu]; subst. apply Forall_app in C as [C Cm]. inversion Cm as [|? ? Cb Cmu]; subst.
  assert (Ck : calm_desk k0) by (apply calm_run; [assumption..|apply calm_empty, M]).
  assert (Ck1 : calm_desk k1) by (apply calm_step; assumption).
  destruct (scrolling_start pr ord the_executor tm k0 i a faults u1 (proj1 Ck) N S1) as (Sc & _).
  pose proof S1 as (v & Ev & Eu). destruct (scrolls_point _ _ _ Sc v Ev) as (pos & lf & (Pf & _) & _).
  destruct (news_run pr ord tm (moves ++ ups) Ho k1 Pmu Cmu Ck1 Pf Nh 0) as (_ & (es & T & _) & _); [rewrite Nat.add_0_r; exact R|].
  assert (E1 : inputs_of (k_file k1) = inputs_of (k_file k0)).
  { destruct Ck as ((Mk & _) & _). unfold k1. cbn [desk_step]. rewrite N. destruct (sd_open faults (k_file k0)) as [file o] eqn:O.
    destruct (open_made _ _ _ _ Mk O) as [(_ & -> & ->)|(_ & sd & -> & _ & _ & Ei & _)]; [reflexivity|].
    destruct (interactive_start pr (tm i) a (Some sd)) as [[u2 out] st]. exact Ei. }
  fold lines in J2. destruct (Nat.eq_dec j (presses i ups)) as [->|Nj]; [lia|]. destruct (J3 ltac:(lia)) as (J4 & G).
  enough (List.length lines <= j) by lia. destruct (Nat.le_gt_cases (List.length lines) j) as [H|H]; [exact H|exfalso].
  assert (Ll : List.length lines = List.length (submitted u) + List.length (inputs_of (k_file k0))) by (unfold lines, texts_of; rewrite app_length, !rev_length, map_length; reflexivity).
  destruct (skipn (j - List.length (submitted u)) (rev (inputs_of (k_file k0)))) as [|e l] eqn:Sk.
  { apply (f_equal (@List.length _)) in Sk. rewrite skipn_length, rev_length in Sk. cbn in Sk. lia. }
  specialize (G e). rewrite Sk in G. specialize (G (or_introl eq_refl)). apply G. unfold ids_of. apply in_map. unfold k. rewrite T, E1. apply in_or_app. left.
  apply in_rev. rewrite <- (firstn_skipn (j - List.length (submitted u)) (rev _)), Sk. apply in_or_app. right. left. reflexivity.
Qed.
