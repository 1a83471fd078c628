(** ProofsReport.v -- when and how sessions give up (C107). *)
From Verif Require Import Base Position Num TokenTypes Errors Token Operations SavedData Variables InputHistory
  SyntaxTree Commands Calculate Editor Sessions Main Report Io Together Interleave SpecGrammar SpecEval SpecHistory SpecSyntax SpecEditor SpecCalc SpecSession SpecData SpecMain SpecReport.
From Verif Require Import ProofsNum ProofsDb ProofsDb2 ProofsDb4 ProofsEditor ProofsEditor2 ProofsEditor3 ProofsEditor4 ProofsCalc ProofsCalc3 ProofsCalc4 ProofsCalc5 ProofsCalc6 ProofsCalc7 ProofsCalc8 ProofsCalc9 ProofsCalc10 ProofsCalm ProofsCalm2 ProofsCommands2 ProofsSession ProofsMain ProofsMain2 ProofsMain3 ProofsCause3.
From Coq Require Import String Lia.
Local Open Scope nat_scope.
Local Open Scope list_scope.

(** ** The display *)
Definition limit (alt : bool) : nat := if alt then 2 else 5.
Lemma u16_no n e : u16_try_from n = Err e -> e = IntConversionError /\ ~ fits_u16 n.
Proof. unfold u16_try_from, fits_u16. destruct (N.ltb_spec (N.of_nat n) 65536); [discriminate|]. intros [= <-]. split; [reflexivity|lia]. Qed.
Lemma too_big a b : a <= b -> ~ fits_u16 a -> ~ fits_u16 b.
Proof. unfold fits_u16. lia. Qed.
Lemma wrapped_why pr alt c cols cursor st t e : fits_u16 cols -> cursor <= List.length t -> display_wrapped pr alt c cols cursor st t = Err e ->
  (cols < 2 /\ e = window_too_narrow) \/ (2 < cols /\ cursor <> 0 /\ ~ fits_u16 (List.length t) /\ e = IntConversionError).
Proof.
  intros F L D. unfold display_wrapped in D. cbv zeta in D. change (List.length (repeat c_space (List.length PROMPT_STR))) with 2 in D.
  destruct (Nat.ltb_spec cols 2); [left; injection D as <-; auto|]. destruct (Nat.eqb_spec (cols - 2) 0); [discriminate D|].
  assert (Q : Nat.div cursor (cols - 2) <= cursor) by (apply Nat.div_le_upper_bound; [lia|]; nia).
  pose proof (Nat.mod_upper_bound cursor (cols - 2) ltac:(lia)) as B.
  destruct (u16_try_from (Nat.div _ _)) as [q|e1|p] eqn:U1; cbn [bind] in D; [|right; injection D as <-; apply u16_no in U1 as (-> & N)|discriminate D].
  - destruct (u16_add pr q _) as [q1|e1|p] eqn:U2; cbn [bind] in D; [|unfold u16_add in U2; destruct (N.ltb _ _); [discriminate U2|destruct pr; discriminate U2]|discriminate D].
    destruct (u16_try_from (_ + _)) as [q2|e1|p] eqn:U3; cbn [bind] in D; [|apply u16_no in U3 as (_ & N); destruct N; unfold fits_u16 in *; lia|discriminate D].
    destruct (slice t 0 _) as [s|e1|p] eqn:S; cbn [bind] in D; [|destruct (slice_no_err _ _ _ _ S)|discriminate D].
    destruct (wrap_rest _ _ _ _ _ _) as [w|e1|p] eqn:W; cbn [bind] in D; [discriminate D|destruct (wrap_no_err _ _ _ _ _ _ _ W)|discriminate D].
  - split; [lia|]. split; [|split; [eapply too_big; [|exact N]; lia|reflexivity]].
    intros ->. apply N. rewrite Nat.div_0_l by lia. reflexivity.
Qed.
Lemma scrolling_why pr cols cursor off t e : fits_u16 cols -> cursor <= List.length t -> display_scrolling pr cols cursor off t = Err e ->
  cols < 5 /\ e = window_too_narrow.
Proof.
  intros F L D. destruct (Nat.lt_ge_cases cols 5) as [H|H].
  - split; [exact H|]. unfold display_scrolling in D. change (List.length SCROLL_LEFT_INDICATOR_STR + List.length SCROLL_RIGHT_INDICATOR_STR) with 4 in D. cbv zeta in D.
    destruct (Nat.leb_spec cols 4); [injection D as <-; reflexivity|lia].
  - destruct (scrolling_ok pr cols cursor off t H F L) as (off' & a & b & c & E & _). rewrite E in D. discriminate D.
Qed.
Lemma display_why pr alt c l h t e : fits_u16 (l_cols l) -> shown h = Ok t -> l_cursor l <= List.length t -> display pr alt c l h = Err e ->
  (e = window_too_narrow /\ l_cols l < (if alt || c then 2 else 5)) \/ (e = IntConversionError /\ ~ fits_u16 (List.length t) /\ l_cursor l <> 0).
Proof.
  intros F S L D. unfold display in D. unfold shown in S. rewrite S in D. cbn [bind] in D. destruct (alt || c).
  - destruct (display_wrapped _ _ _ _ _ _ _) as [o|e1|p] eqn:W; cbn [bind] in D; try discriminate D. injection D as <-.
    destruct (wrapped_why _ _ _ _ _ _ _ _ F L W) as [(A & ->)|(_ & A & B & ->)]; auto.
  - destruct (display_scrolling _ _ _ _ _) as [[o o2]|e1|p] eqn:W; cbn [bind] in D; try discriminate D. injection D as <-.
    destruct (scrolling_why _ _ _ _ _ _ F L W) as (A & ->). auto.
Qed.
Lemma display_wide pr alt l h l' out : display pr alt false l h = Ok (l', out) -> limit alt <= l_cols l' /\ (alt = true -> 2 < l_cols l') /\ l_cols l' = l_cols l.
Proof.
  unfold display, limit. destruct (current_line h) as [t|e|p]; cbn [bind]; try discriminate. rewrite orb_false_r. destruct alt.
  - destruct (display_wrapped _ _ _ _ _ _ _) as [o|e|p] eqn:D; cbn [bind]; try discriminate. intros E. injection E as <- _. unfold display_wrapped in D. cbv zeta in D.
    change (List.length (repeat c_space (List.length PROMPT_STR))) with 2 in D. destruct (Nat.ltb_spec (l_cols l) 2); [discriminate D|]. destruct (Nat.eqb_spec (l_cols l - 2) 0); [discriminate D|].
    split; [lia|]. split; [lia|reflexivity].
  - destruct (display_scrolling _ _ _ _ _) as [[o o2]|e|p] eqn:D; cbn [bind]; try discriminate. intros E. injection E as <- _. unfold display_scrolling in D. cbv zeta in D.
    change (List.length SCROLL_LEFT_INDICATOR_STR + List.length SCROLL_RIGHT_INDICATOR_STR) with 4 in D. destruct (Nat.leb_spec (l_cols l) 4); [discriminate D|]. cbn [l_cols].
    split; [lia|]. split; [discriminate|reflexivity].
Qed.

(** ** One event *)
(** An event that redraws or changes the width. *)
Lemma handle_event_width ev l h db : let '(l', h', _, act) := handle_event ev l h db in
  l_cols l' = (match ev with EvResize w => w | _ => l_cols l end) /\ (act = AEnter <-> exists mods, ev = EvKey KEnter mods) /\
  ((exists w, ev = EvResize w) -> act = ARedraw /\ h' = h).
Proof.
  assert (St : forall {A} (r : outcome runtime_error A) l0 h0 db0 k (w : nat),
    l_cols l0 = w -> (forall a, let '(l', _, _, act) := k a in l_cols l' = w /\ act <> AEnter) ->
    let '(l', _, _, act) := or_stop r l0 h0 db0 k in l_cols l' = w /\ act <> AEnter).
  { intros A r l0 h0 db0 k w E K. destruct r as [a|e|p]; cbn [or_stop]; [apply K|split; [exact E|discriminate]..]. }
  assert (Fin : forall (r : ev_result) w, (let '(l', _, _, act) := r in l_cols l' = w /\ act <> AEnter) -> (forall mods, ev <> EvKey KEnter mods) -> (forall w0, ev <> EvResize w0) ->
    let '(l', h', _, act) := r in l_cols l' = w /\ (act = AEnter <-> exists mods, ev = EvKey KEnter mods) /\ ((exists w, ev = EvResize w) -> act = ARedraw /\ h' = h)).
  { intros [[[l' h'] db'] act] w (A & B) N1 N2. split; [exact A|]. split; [split; [intros X; destruct (B X)|intros (mods & X); destruct (N1 mods X)]|]. intros (w0 & X). destruct (N2 w0 X). }
  destruct ev as [code mods| |width|].
  2: { cbn. split; [reflexivity|]. split; [split; [discriminate|intros (? & X); discriminate X]|intros (? & X); discriminate X]. }
  2: { cbn. split; [reflexivity|]. split; [split; [discriminate|intros (? & X); discriminate X]|auto]. }
  2: { cbn. split; [reflexivity|]. split; [split; [discriminate|intros (? & X); discriminate X]|intros (? & X); discriminate X]. }
  destruct code; try (cbn [handle_event]; apply Fin; try discriminate).
  - unfold handle_char. destruct (negb (is_ascii c)); [split; [reflexivity|discriminate]|]. destruct (N.eqb mods CONTROL && (N.eqb c 100 || N.eqb c 122 || N.eqb c 99)); [split; [reflexivity|discriminate]|].
    destruct (N.eqb mods CONTROL && (N.eqb c 109 || N.eqb c 110)).
    { apply St; [reflexivity|]. intros t. apply St; [reflexivity|]. intros [p|]; (split; [reflexivity|discriminate]). }
    destruct (N.eqb mods SHIFT); [apply St; [reflexivity|]; intros t; split; [reflexivity|discriminate]|].
    destruct (negb (N.eqb mods 0)); [split; [reflexivity|discriminate]|]. apply St; [reflexivity|]. intros t. split; [reflexivity|discriminate].
  - destruct (Nat.eqb (l_cursor l) 0); [split; [reflexivity|discriminate]|]. apply St; [reflexivity|]. intros t. split; [reflexivity|discriminate].
  - apply St; [reflexivity|]. intros t. destruct (Nat.leb _ _); [split; [reflexivity|discriminate]|]. apply St; [reflexivity|]. intros t'. split; [reflexivity|discriminate].
  - destruct (try_earlier h db) as [[h' db'] [[|]|e|p]]; try (split; [reflexivity|discriminate]). apply St; [reflexivity|]. intros t. split; [reflexivity|discriminate].
  - destruct (try_later h) as [h' [|]]; [|split; [reflexivity|discriminate]]. apply St; [reflexivity|]. intros t. split; [reflexivity|discriminate].
  - destruct (move_distance mods); split; try reflexivity; discriminate.
  - destruct (move_distance mods); [|split; [reflexivity|discriminate]]. apply St; [reflexivity|]. intros t. split; [reflexivity|discriminate].
  - cbn. split; [reflexivity|]. split; [split; [discriminate|intros (? & X); discriminate X]|intros (? & X); discriminate X].
  - apply St; [reflexivity|]. intros t. split; [reflexivity|discriminate].
  - cbn. split; [reflexivity|]. split; [split; [eauto|reflexivity]|intros (? & X); discriminate X].
  - cbn. split; [reflexivity|]. split; [split; [discriminate|intros (? & X); discriminate X]|intros (? & X); discriminate X].
Qed.

(** Lines completed so far. *)
Fixpoint lines_in (evs : list event) : nat :=
  match evs with [] => 0 | EvKey KEnter _ :: rest => S (lines_in rest) | _ :: rest => lines_in rest end.
Lemma width_app tm b : forall a n w, width_from tm n w (a ++ b) = width_from tm (n + lines_in a) (width_from tm n w a) b.
Proof.
  induction a as [|ev a IH]; intros n w; [cbn; rewrite Nat.add_0_r; reflexivity|]. destruct ev as [code mods| |w'|]; try destruct code; cbn [app width_from lines_in]; rewrite IH; try reflexivity.
  rewrite <- Nat.add_succ_comm. reflexivity.
Qed.
Lemma lines_app b : forall a, lines_in (a ++ b) = lines_in a + lines_in b.
Proof. induction a as [|ev a IH]; [reflexivity|]. destruct ev as [code mods| |w'|]; try destruct code; cbn [app lines_in]; rewrite IH; reflexivity. Qed.

Section Steps.
  Context (pr : profile) (ord : nat -> list str -> list str) (tm : terminal) (alt : bool).
  Context (Ho : forall n, iterates (ord n)) (Ft : forall n, fits_u16 (snd (tm n))).
  Notation wide evs := (width_from tm 0 (snd (tm 0)) evs).
  (** The session stands as it does after the events, which it has survived. *)
  Definition settled (n w : nat) (u : ui) : Prop :=
    ui_good u /\ untold (u_inputs u) (u_db u) /\ ui_ok u /\ a_alternate_screen (u_args u) = alt /\
    u_count u = n /\ l_cols (u_line u) = w.
  Definition stands (n w : nat) (u : ui) : Prop := settled n w u /\ limit alt <= w /\ (alt = true -> 2 < w).
  Lemma start_why u n : ui_good u -> untold (u_inputs u) (u_db u) -> ih_ok (u_inputs u) -> a_alternate_screen (u_args u) = alt -> u_count u = n ->
    let '(u', _, st) := start_line pr tm u in
    (st = Waiting -> stands n (snd (tm n)) u') /\
    (forall e, st = Failed e -> e = window_too_narrow /\ snd (tm n) < limit alt).
  Proof.
    intros G U Ok A E. pose proof (start_line_good pr tm u G) as G'. pose proof (start_line_ok pr tm u Ok) as K'. unfold start_line in *. cbv zeta in *. rewrite A, E in *.
    destruct (display pr alt false _ (u_inputs u)) as [[l' o]|e|p] eqn:D; cbn [fst snd] in *.
    - split; [intros _|discriminate]. pose proof (display_wide _ _ _ _ _ _ D) as (B1 & B2 & B3). cbn [l_cols] in B3. rewrite B3 in B1, B2.
      split; [|split; assumption]. split; [exact G'|]. split; [exact U|]. split; [exact K'|]. cbn. auto.
    - split; [discriminate|]. intros e0 E0. injection E0 as <-. destruct (shown_sheet _ Ok) as (t & Et & _).
      destruct (display_why _ _ _ _ _ _ _ (Ft n : fits_u16 (l_cols (mkLine 0 0 (fst (tm n)) (snd (tm n))))) Et ltac:(cbn; lia) D) as [(-> & L)|(_ & _ & X)]; [|destruct X; reflexivity].
      rewrite orb_false_r in L. auto.
    - split; discriminate.
  Qed.
  Lemma finish_why u n w : fits_u16 w -> stands n w u ->
    let '(u', _, st) := finish_line pr ord the_executor tm u in
    (st = Waiting -> stands (S n) (snd (tm (S n))) u') /\
    (forall e, st = Failed e -> (e = window_too_narrow /\ snd (tm (S n)) < limit alt) \/
       (e = IntConversionError /\ exists t, shown (u_inputs u') = Ok t /\ ~ fits_u16 (List.length t))).
  Proof.
    intros Fw ((G & U & O & A & En & Ew) & L1 & L2). destruct O as (Ok & t & Et & Hc). unfold finish_line. cbv zeta. rewrite A.
    destruct (display pr alt true (u_line u) (u_inputs u)) as [[l1 out1]|e|p] eqn:D.
    2:{ split; [discriminate|]. intros e0 E0. injection E0 as <-. rewrite <- Ew in Fw. destruct (display_why _ _ _ _ _ _ _ Fw Et Hc D) as [(_ & L)|(-> & N & _)]; [|right; eauto].
        exfalso. rewrite orb_true_r, Ew in L. unfold limit in L1. destruct alt; lia. }
    2:{ split; discriminate. }
    unfold shown in Et. rewrite Et.
    change (mkSession (u_args u) (Some (u_inputs u)) (mkEnv (Some (u_vars u)) (u_db u))) with (session_of u).
    destruct (calculate pr (ord (u_count u)) the_executor t (session_of u)) as [se' r] eqn:C.
    destruct G as (V & B & R).
    destruct (calculate_valid _ _ _ _ (session_of u) _ _ V B (Ho _) C) as (A' & B' & Vn).
    pose proof (calculate_real _ _ _ _ (session_of u) _ _ V B R C) as R'.
    pose proof (calculate_db _ _ _ _ (session_of u) _ _ V B (Ho _) C) as Hdb. pose proof (line_screen _ _ _ _ _ _ C) as Sc.
    destruct (calculate_exhausted _ _ _ _ _ _ _ _ _ C) as (h' & Eh & Ee).
    destruct (calculate_inputs pr (ord (u_count u)) the_executor t (u_args u) (u_inputs u) (mkEnv (Some (u_vars u)) (u_db u)) Ok) as (h2 & Eh2 & Ok2).
    change (mkSession (u_args u) (Some (u_inputs u)) (mkEnv (Some (u_vars u)) (u_db u))) with (session_of u) in Eh2.
    rewrite C in Eh2. cbn [fst] in Eh2. rewrite Eh in Eh2. injection Eh2 as <-. rewrite Eh.
    destruct (e_vars (s_env se')) as [m'|] eqn:Em; [|exfalso; cbn in Vn; destruct Vn as [_ Vn]; discriminate (Vn eq_refl)].
    destruct (render r) as [text|e|p] eqn:Er; [|destruct (render_no_err _ _ Er)|split; discriminate].
    match goal with |- context [start_line pr tm ?u0] => pose proof (start_why u0 (S n)) as SW; destruct (start_line pr tm u0) as [[u'' out3] st] end.
    cbn [u_args u_vars u_db u_inputs u_count] in SW. destruct SW as (S1 & S2).
    - split; [exact A'|]. assert (ui_env (mkUi (s_args se') m' (e_db (s_env se')) h' (u_line u) (S (u_count u))) = s_env se') as E.
      { unfold ui_env. cbn [u_vars u_db]. destruct (s_env se') as [v d]. cbn in *. congruence. }
      rewrite E. split; assumption.
    - intros X. rewrite Ee. apply U. exact (proj2 Hdb X).
    - exact Ok2.
    - rewrite Sc. exact A.
    - congruence.
    - split; [exact S1|]. intros e E. left. exact (S2 e E).
  Qed.
  Lemma step_why u n w ev : fits_u16 w -> (forall w', ev = EvResize w' -> fits_u16 w') -> stands n w u ->
    let '(u', _, st) := ui_step pr ord the_executor tm ev u in
    (st = Waiting -> stands (n + lines_in [ev]) (width_from tm n w [ev]) u') /\
    (forall e, st = Failed e ->
       (e = window_too_narrow /\ looked [ev] /\ width_from tm n w [ev] < limit alt) \/
       (e = IntConversionError /\ exists t, shown (u_inputs u') = Ok t /\ ~ fits_u16 (List.length t)) \/
       (e = paste_error /\ ev = EvPaste) \/
       (e = SqliteError /\ (exists mods, ev = EvKey KUp mods) /\ exists sd, u_db u = Some sd /\ hd false (sd_faults sd) = true)).
  Proof.
    intros Fw Fr St. assert (En : (exists mods, ev = EvKey KEnter mods) \/ ~ exists mods, ev = EvKey KEnter mods).
    { destruct ev as [[]| | |]; try (right; intros (? & X); discriminate X). left. eauto. }
    destruct En as [(mods & ->)|En].
    - unfold ui_step. cbn [handle_event]. cbn [lines_in width_from]. rewrite Nat.add_1_r. replace (mkUi _ _ _ _ _ _) with u by (destruct u; reflexivity).
      pose proof (finish_why u n w Fw St) as F. destruct (finish_line _ _ _ _ _) as [[u' out] st]. destruct F as (F1 & F2). split; [exact F1|].
      intros e E. destruct (F2 e E) as [(-> & L)|X]; [left|right; left; exact X]. split; [reflexivity|]. split; [|exact L]. right. exists [], (EvKey KEnter mods). eauto.
    - destruct St as ((G & U & (Ok & In0) & A & Cn & Ew) & L1 & L2). unfold ui_step.
      pose proof (handle_event_caused ev (u_line u) (u_inputs u) (u_db u) U) as Ca. pose proof (handle_event_good ev (u_line u) (u_inputs u) (u_db u) Ok In0) as Go.
      pose proof (handle_event_width ev (u_line u) (u_inputs u) (u_db u)) as Wi. pose proof (handle_event_file ev (u_line u) (u_inputs u) (u_db u)) as Fi.
      destruct (handle_event _ _ _ _) as [[[l' h'] db'] act]. destruct Ca as (U' & _ & _ & Fa). destruct Go as (Ok' & In' & _). destruct Wi as (Wc & We & Wr).
      assert (Ln : lines_in [ev] = 0) by (destruct ev as [[]| | |]; try reflexivity; destruct En; eauto).
      assert (Wd : width_from tm n w [ev] = l_cols l').
      { rewrite Wc, Ew. destruct ev as [[]| | |]; try reflexivity. destruct En; eauto. }
      assert (G' : forall l0, ui_good (mkUi (u_args u) (u_vars u) db' h' l0 (u_count u))) by (intros l0; destruct u; eapply good_file; [exact Fi|exact G]).
      rewrite Ln, Nat.add_0_r, Wd. destruct act.
      + split; [intros _|discriminate]. assert (Nr : l_cols l' = w).
        { rewrite Wc. destruct ev; try exact Ew. destruct (Wr ltac:(eauto)) as (X & _). discriminate X. }
        rewrite Nr. split; [|auto]. split; [apply G'|]. split; [exact U'|]. split; [split; [exact Ok'|exact In']|]. cbn. auto.
      + destruct (display _ _ _ _ _) as [[l'' out]|e|p] eqn:D.
        * split; [intros _|discriminate]. rewrite A in D. pose proof (display_wide _ _ _ _ _ _ D) as (B1 & B2 & B3). rewrite B3 in B1, B2. split; [|auto].
          split; [apply G'|]. split; [exact U'|]. split; [split; [exact Ok'|]; cbn; rewrite (display_cursor _ _ _ _ _ _ _ D); exact In'|]. cbn. auto.
        * split; [discriminate|]. intros e0 E0. injection E0 as <-. destruct In' as (t & Et & Hc).
          assert (F' : fits_u16 (l_cols l')) by (rewrite Wc; destruct ev; try (rewrite Ew; exact Fw); apply Fr; reflexivity).
          rewrite A in D. destruct (display_why _ _ _ _ _ _ _ F' Et Hc D) as [(-> & L)|(-> & N & _)]; [left|right; left; eauto].
          rewrite orb_false_r in L. fold (limit alt) in L. split; [reflexivity|]. split; [|exact L]. right. exists [], ev. split; [reflexivity|]. left.
          destruct ev as [code mods| |w'|]; try (exfalso; rewrite Wc, Ew in L; lia). eauto.
        * split; discriminate.
      + exfalso. apply En, We. reflexivity.
      + split; discriminate.
      + split; [discriminate|]. intros e0 E0. injection E0 as <-. right. right. exact (Fa e eq_refl).
      + split; discriminate.
  Qed.
  Lemma run_why evs : forall u n w, fits_u16 w -> (forall w', In (EvResize w') evs -> fits_u16 w') -> stands n w u ->
    let '(u', _, st) := run_events pr ord the_executor tm evs u in
    (st = Waiting -> stands (n + lines_in evs) (width_from tm n w evs) u') /\
    (forall e, st = Failed e -> exists first ev rest u1, evs = first ++ ev :: rest /\
       fst (fst (run_events pr ord the_executor tm first u)) = u1 /\ snd (run_events pr ord the_executor tm first u) = Waiting /\
       ((e = window_too_narrow /\ looked [ev] /\ width_from tm n w (first ++ [ev]) < limit alt) \/
        (e = IntConversionError /\ exists t, shown (u_inputs (fst (fst (run_events pr ord the_executor tm (first ++ [ev]) u)))) = Ok t /\ ~ fits_u16 (List.length t)) \/
        (e = paste_error /\ ev = EvPaste) \/
        (e = SqliteError /\ (exists mods, ev = EvKey KUp mods) /\ exists sd, u_db u1 = Some sd /\ hd false (sd_faults sd) = true))).
  Proof.
    induction evs as [|ev evs IH]; intros u n w Fw Fr St; cbn [run_events].
    { split; [|discriminate]. intros _. rewrite Nat.add_0_r. exact St. }
    pose proof (step_why u n w ev Fw (fun w' E => Fr w' (or_introl E)) St) as K. destruct (ui_step pr ord the_executor tm ev u) as [[u' out] st] eqn:E0. destruct K as (K1 & K2).
    destruct st as [| |e|p]; [|split; discriminate| |split; discriminate].
    - specialize (K1 eq_refl). assert (Fw' : fits_u16 (width_from tm n w [ev])).
      { destruct ev as [[]| |w'|]; cbn [width_from]; try exact Fw; [apply Ft|apply Fr; left; reflexivity]. }
      specialize (IH u' _ _ Fw' (fun w' I => Fr w' (or_intror I)) K1). destruct (run_events pr ord the_executor tm evs u') as [[u2 o2] st2] eqn:E2. destruct IH as (I1 & I2).
      split.
      + intros W. specialize (I1 W). rewrite <- width_app, <- Nat.add_assoc, <- lines_app in I1. exact I1.
      + intros e E. destruct (I2 e E) as (first & ev' & rest & u1 & -> & R1 & R2 & Why). exists (ev :: first), ev', rest, u1. split; [reflexivity|]. cbn [run_events app]. rewrite E0.
        destruct (run_events pr ord the_executor tm first u') as [[u3 o3] st3]. cbn [fst snd] in *. split; [exact R1|]. split; [exact R2|].
        rewrite <- width_app in Why. destruct (run_events pr ord the_executor tm (first ++ [ev']) u') as [[u4 o4] st4]. exact Why.
    - split; [discriminate|]. intros e0 E. injection E as <-. exists [], ev, evs, u. split; [reflexivity|]. split; [reflexivity|]. split; [reflexivity|]. cbn [run_events app]. rewrite E0. cbn [fst snd].
      exact (K2 e eq_refl).
  Qed.
End Steps.

(** ** Whole runs *)
Lemma main_err pr ord o m evs e : o_input o = None -> terminal_starts o m ->
  snd (interactive_calc pr ord the_executor o m evs) = e -> out_ending (main pr ord o m evs) = e /\ out_stderr (main pr ord o m evs) = [].
Proof.
  intros I (A & B) E. rewrite main_unfold, I, A. cbn [negb]. destruct (a_alternate_screen (o_args o)) eqn:Q; [rewrite (B eq_refl)|]; cbn [negb andb];
    destruct (interactive_calc _ _ _ _ _ _) as [[[file a] cmds] e0]; cbn [out_ending out_stderr snd] in *; auto.
Qed.
Lemma starts_or o m : terminal_starts o m \/ ~ terminal_starts o m.
Proof. unfold terminal_starts. destruct (m_enable_raw m), (m_enter_screen m), (a_alternate_screen (o_args o)); try (left; split; [reflexivity|congruence]); right; intros (A & B); try discriminate A; discriminate (B eq_refl). Qed.
Lemma no_start pr ord o m evs : o_input o = None -> ~ terminal_starts o m -> out_ending (main pr ord o m evs) = FailedWith TerminalFailed /\ out_stderr (main pr ord o m evs) = [].
Proof.
  intros I N. rewrite main_unfold, I. unfold terminal_starts in N. destruct (m_enable_raw m); cbn [negb]; [|auto].
  destruct (a_alternate_screen (o_args o)), (m_enter_screen m); cbn [negb andb]; auto; exfalso; apply N; split; try reflexivity; congruence.
Qed.
Lemma prefix_running pr ord o m first a b : out_ending (main pr ord o m first) = Running -> first = a ++ b -> out_ending (main pr ord o m a) = Running.
Proof.
  intros R ->. destruct (out_ending (main pr ord o m a)) eqn:E; try reflexivity;
    (rewrite ends_once in R; [congruence|unfold ended; rewrite E; cbn; eauto]).
Qed.

Section Ends.
  Context (pr : profile) (ord : nat -> list str -> list str) (foreign : main_error -> str) (o : options) (m : machine).
  Context (Ho : forall n, iterates (ord n)) (Ha : valid_settings (o_args o)) (Hm : made_file (m_file m)) (Hi : o_input o = None) (Ht : terminal_starts o m).
  Notation opened := (if o_no_db o then (m_file m, inr (Ok None)) else open_database m).
  Notation sess db evs := (interactive pr ord the_executor (m_terminal m) (o_args o) db evs).
  Lemma opened_good file db : opened = (file, inr (Ok db)) -> (forall sd, db = Some sd -> program_file (sd_db sd) /\ uses_database o m).
  Proof.
    intros E sd ->. unfold uses_database. destruct (o_no_db o) eqn:Nd; [discriminate E|]. unfold open_database in E. destruct (m_root m); try discriminate E. destruct (m_directory m); [|discriminate E].
    destruct (sd_open (m_faults m) (m_file m)) as [d' r] eqn:Op. destruct (open_made _ _ _ _ Hm Op) as [(_ & _ & ->)|(_ & sd' & -> & Sd & P & _)]; [discriminate E|]. injection E as <- <-.
    split; [rewrite Sd; exact P|]. auto.
  Qed.
  Lemma calc_of file db evs : opened = (file, inr (Ok db)) ->
    snd (interactive_calc pr ord the_executor o m evs) = match snd (sess db evs) with Waiting => Running | Exited => Succeeded | Failed e => FailedWith (Runtime e) | Crashed p => Panicked p end.
  Proof. intros E. unfold interactive_calc. cbv zeta. rewrite E. destruct (sess db evs) as [[u c] st]. reflexivity. Qed.
  Lemma session_is file db evs : opened = (file, inr (Ok db)) -> session_at pr ord o m evs (fst (fst (sess db evs))).
  Proof. intros E. exists the_executor, file, db. split; [apply executor_new_ok|]. auto. Qed.
  (** The session proper. *)
  Lemma session_why file db evs : real_widths m evs -> opened = (file, inr (Ok db)) ->
    let '(u, _, st) := sess db evs in
    (st = Waiting -> stands (a_alternate_screen (o_args o)) (lines_in evs) (window m evs) u) /\
    (forall e, st = Failed e -> exists first rest, evs = first ++ rest /\
       (forall a b, first = a ++ b -> b <> [] -> snd (sess db a) = Waiting) /\ gives_up pr ord foreign o m first (debug_error foreign (Runtime e))).
  Proof.
    intros (Ft & Fr) E. unfold window.
    pose proof (start_why pr (m_terminal m) (a_alternate_screen (o_args o)) Ft
      (mkUi (o_args o) vs_new db (ih_new (match db with Some _ => true | None => false end)) (mkLine 0 0 (0, 0) 0) 0) 0) as SW.
    unfold interactive. unfold interactive_start in *. match goal with |- context [start_line pr _ ?u0] => destruct (start_line pr (m_terminal m) u0) as [[u0' out0] st0] eqn:S0 end.
    cbn [u_args u_vars u_db u_inputs u_count] in SW. destruct SW as (S1 & S2).
    - split; [exact Ha|]. split; [split|]; cbn.
      + intros m0 y v X. injection X as <-. discriminate.
      + intros sd X. apply file_rows, (opened_good _ _ E sd X).
      + intros sd X. apply (opened_good _ _ E sd X).
    - intros ->. reflexivity.
    - apply ih_new_ok.
    - reflexivity.
    - reflexivity.
    - destruct st0 as [| |e0|p0].
      + specialize (S1 eq_refl). pose proof (run_why pr ord (m_terminal m) _ Ho Ft evs u0' 0 _ (Ft 0) Fr S1) as R.
        destruct (run_events pr ord the_executor (m_terminal m) evs u0') as [[u1 out1] st1] eqn:Ru. destruct R as (R1 & R2). split; [exact R1|].
        intros e X. destruct (R2 e X) as (first & ev & rest & u2 & -> & F1 & F2 & Why). exists (first ++ [ev]), rest. split; [rewrite <- app_assoc; reflexivity|].
        assert (Pre : forall a b, first ++ [ev] = a ++ b -> b <> [] -> snd (let '(u', out', st) := run_events pr ord the_executor (m_terminal m) a u0' in (u', out0 ++ out', st)) = Waiting).
        { intros a b Q N. destruct (exists_last N) as (b' & z & ->). rewrite app_assoc in Q. apply app_inj_tail in Q as (-> & _). clear - F2.
          rewrite run_events_app in F2. destruct (run_events pr ord the_executor (m_terminal m) a u0') as [[ua oa] sa]. cbn [snd]. destruct sa; [reflexivity|discriminate F2..]. }
        split; [exact Pre|].
        assert (Int : forall a, sess db a = (let '(u', out', st) := run_events pr ord the_executor (m_terminal m) a u0' in (u', out0 ++ out', st))) by (intros a; unfold interactive, interactive_start; rewrite S0; reflexivity).
        assert (At : forall a, session_at pr ord o m a (fst (fst (run_events pr ord the_executor (m_terminal m) a u0')))).
        { intros a. pose proof (session_is _ _ a E) as K. rewrite Int in K. destruct (run_events pr ord the_executor (m_terminal m) a u0') as [[ua oa] sa]. exact K. }
        destruct Why as [(-> & Lk & Nw)|[(-> & t & Et & Nt)|[(-> & ->)|(-> & (mods & ->) & sd & Ed & Hd)]]].
        * change (debug_error foreign (Runtime window_too_narrow)) with (lit "CalculatorEnvironmentError { message: ""Window too narrow"" }"). apply narrow; [|exact Nw].
          destruct Lk as [X0|(pre & ev0 & Q & Y)]; [discriminate X0|]. right. exists first, ev0. apply (app_inj_tail [] pre) in Q as (_ & ->). auto.
        * change (debug_error foreign (Runtime IntConversionError)) with (lit "TryFromIntError(())"). eapply too_long; [apply At|exact Et|exact Nt].
        * change (debug_error foreign (Runtime paste_error)) with (lit "InternalCalculatorError { message: ""Paste unimplemented!"" }"). apply pasted.
        * cbn [debug_error]. refine (not_read pr ord foreign o m first mods u2 sd _ ltac:(rewrite <- F1; apply At) Ed Hd).
          assert (Nn : db <> None).
          { intros ->. pose proof (interactive_none pr ord the_executor (m_terminal m) (o_args o) first Ho Ha) as K. rewrite Int in K. rewrite <- F1 in Ed. destruct (run_events pr ord the_executor (m_terminal m) first u0') as [[ua oa] sa]. cbn [fst] in K, Ed. rewrite K in Ed. discriminate Ed. }
          destruct db as [sd0|]; [|destruct (Nn eq_refl)]. apply (opened_good _ _ E sd0 eq_refl).
      + split; discriminate.
      + split; [discriminate|]. intros e X. injection X as <-. exists [], evs. split; [reflexivity|]. split.
        * intros a b Q N. destruct a; [|discriminate Q]. destruct b; [destruct (N eq_refl)|discriminate Q].
        * destruct (S2 e0 eq_refl) as (-> & L). change (debug_error foreign (Runtime window_too_narrow)) with (lit "CalculatorEnvironmentError { message: ""Window too narrow"" }").
          apply narrow; [left; reflexivity|exact L].
      + split; discriminate.
  Qed.
  Lemma started_why evs e : real_widths m evs -> out_ending (main pr ord o m evs) = FailedWith e ->
    exists first rest, evs = first ++ rest /\ (forall a b, first = a ++ b -> b <> [] -> out_ending (main pr ord o m a) = Running) /\
      gives_up pr ord foreign o m first (debug_error foreign e).
  Proof.
    intros Fw F. assert (Mn : forall a, out_ending (main pr ord o m a) = snd (interactive_calc pr ord the_executor o m a)) by (intros a; exact (proj1 (main_err pr ord o m a _ Hi Ht eq_refl))).
    rewrite Mn in F.
    assert (Zero : forall t, gives_up pr ord foreign o m [] t -> t = debug_error foreign e -> exists first rest, evs = first ++ rest /\
      (forall a b, first = a ++ b -> b <> [] -> out_ending (main pr ord o m a) = Running) /\ gives_up pr ord foreign o m first (debug_error foreign e)).
    { intros t G <-. exists [], evs. split; [reflexivity|]. split; [|exact G]. intros a b Q N. destruct a; [|discriminate Q]. destruct b; [destruct (N eq_refl)|discriminate Q]. }
    destruct opened as [file [e1|[db|e1|p1]]] eqn:Op.
    - unfold interactive_calc in F. cbv zeta in F. rewrite Op in F. cbn [snd] in F. injection F as <-. destruct (o_no_db o) eqn:Nd; [discriminate Op|]. unfold open_database in Op.
      destruct (m_root m) eqn:Rt; [discriminate Op| |].
      + injection Op as _ <-. eapply Zero; [apply bad_root; assumption|reflexivity].
      + destruct (m_directory m) eqn:Dr; [destruct (sd_open (m_faults m) (m_file m)) as [d' [?|?|?]]; discriminate Op|]. injection Op as _ <-. eapply Zero; [apply no_directory; assumption|reflexivity].
    - pose proof (session_why file db evs Fw Op) as W. rewrite (calc_of file db evs Op) in F. destruct (sess db evs) as [[u c] st]. cbn [snd] in F. destruct W as (_ & W).
      destruct st as [| |e0|p0]; try discriminate F. injection F as <-. destruct (W e0 eq_refl) as (first & rest & -> & Pre & G). exists first, rest. split; [reflexivity|]. split; [|exact G].
      intros a b Q N. rewrite Mn, (calc_of file db a Op), (Pre a b Q N). reflexivity.
    - unfold interactive_calc in F. cbv zeta in F. rewrite Op in F. cbn [snd] in F. injection F as <-. destruct (o_no_db o) eqn:Nd; [discriminate Op|]. unfold open_database in Op.
      destruct (m_root m) eqn:Rt; [discriminate Op|discriminate Op|]. destruct (m_directory m) eqn:Dr; [|discriminate Op].
      destruct (sd_open (m_faults m) (m_file m)) as [d' r] eqn:So. destruct (open_made _ _ _ _ Hm So) as [(H1 & _ & ->)|(_ & sd & -> & _)]; [|discriminate Op]. injection Op as _ <-.
      eapply Zero; [apply not_opened|reflexivity]; [split; [exact Hi|split; [exact Nd|split; assumption]]|]. destruct (m_faults m) as [|f0 fs]; cbn in *; congruence.
    - unfold interactive_calc in F. cbv zeta in F. rewrite Op in F. discriminate F.
  Qed.
  Lemma running_session evs : real_widths m evs -> out_ending (main pr ord o m evs) = Running -> ~ too_narrow o (window m evs) /\
    exists file db, opened = (file, inr (Ok db)) /\ snd (sess db evs) = Waiting /\ a_alternate_screen (u_args (fst (fst (sess db evs)))) = a_alternate_screen (o_args o) /\
      exists t, shown (u_inputs (fst (fst (sess db evs)))) = Ok t.
  Proof.
    intros Fw F. rewrite (proj1 (main_err pr ord o m evs _ Hi Ht eq_refl)) in F. destruct opened as [file [e1|[db|e1|p1]]] eqn:Op; try (unfold interactive_calc in F; cbv zeta in F; rewrite Op in F; discriminate F).
    pose proof (session_why file db evs Fw Op) as W. rewrite (calc_of file db evs Op) in F. destruct (sess db evs) as [[u c] st] eqn:Ss. cbn [snd fst] in *. destruct W as (W & _). destruct st; try discriminate F.
    destruct (W eq_refl) as (St & L & _). split; [unfold too_narrow, limit in *; lia|]. exists file, db. split; [reflexivity|]. rewrite Ss. split; [reflexivity|]. destruct St as (_ & _ & Oi & A & _). destruct Oi as (_ & t & Et & _). cbn [fst]. eauto.
  Qed.
  Lemma next_event evs ev : real_widths m evs -> out_ending (main pr ord o m evs) = Running -> exists u, (a_alternate_screen (u_args u) = a_alternate_screen (o_args o) /\ exists t, shown (u_inputs u) = Ok t) /\
    out_ending (main pr ord o m (evs ++ [ev])) = match snd (ui_step pr ord the_executor (m_terminal m) ev u) with Waiting => Running | Exited => Succeeded | Failed e => FailedWith (Runtime e) | Crashed p => Panicked p end.
  Proof.
    intros Fw F. destruct (running_session evs Fw F) as (_ & file & db & Op & W & A). exists (fst (fst (sess db evs))). split; [exact A|].
    rewrite (proj1 (main_err pr ord o m (evs ++ [ev]) _ Hi Ht eq_refl)), (calc_of file db _ Op), interactive_app. destruct (sess db evs) as [[u c] st]. cbn [snd fst] in *. subst st. cbn [run_events].
    destruct (ui_step pr ord the_executor (m_terminal m) ev u) as [[u' o'] st']. destruct st'; reflexivity.
  Qed.
  Lemma paste_ends evs : real_widths m evs -> out_ending (main pr ord o m evs) = Running -> out_ending (main pr ord o m (evs ++ [EvPaste])) = FailedWith (Runtime paste_error).
  Proof. intros Fw F. destruct (next_event evs EvPaste Fw F) as (u & _ & ->). reflexivity. Qed.
  Lemma shrink_ends evs w : real_widths m evs -> out_ending (main pr ord o m evs) = Running -> too_narrow o w ->
    out_ending (main pr ord o m (evs ++ [EvResize w])) = FailedWith (Runtime window_too_narrow).
  Proof.
    intros Fw F N. destruct (next_event evs (EvResize w) Fw F) as (u & (A & t & Et) & ->). unfold ui_step. cbn [handle_event]. rewrite A. unfold display.
    unfold shown in Et. rewrite Et. cbn [bind]. rewrite orb_false_r. unfold too_narrow in N. destruct (a_alternate_screen (o_args o)).
    - unfold display_wrapped. cbv zeta. cbn [l_cols]. change (List.length (repeat c_space (List.length PROMPT_STR))) with 2. destruct (Nat.ltb_spec w 2); [reflexivity|lia].
    - unfold display_scrolling. cbv zeta. cbn [l_cols]. change (List.length SCROLL_LEFT_INDICATOR_STR + List.length SCROLL_RIGHT_INDICATOR_STR) with 4. destruct (Nat.leb_spec w 4); [reflexivity|lia].
  Qed.
End Ends.

Lemma main_quiet pr ord o m evs : o_input o = None -> out_stderr (main pr ord o m evs) = [].
Proof. intros I. destruct (starts_or o m) as [S|S]; [exact (proj2 (main_err pr ord o m evs _ I S eq_refl))|exact (proj2 (no_start pr ord o m evs I S))]. Qed.
