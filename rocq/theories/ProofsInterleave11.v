(** ProofsInterleave11.v -- interleaved calls (C92): command lines. *)
From Verif Require Import Base SpecDecimal ProofsShow Position Num TokenTypes Errors Token Operations SavedData Variables InputHistory
  SyntaxTree Commands Calculate Editor Sessions Main Io Together Interleave SpecGrammar SpecEval SpecHistory SpecSyntax SpecEditor SpecCalc SpecSession SpecCommands SpecData SpecMain SpecTogether SpecInterleave.
From Verif Require Import ProofsNum ProofsLex ProofsLex2 ProofsEval ProofsDb ProofsDb2 ProofsDb3 ProofsDb4 ProofsDb5 ProofsEditor4 ProofsCalc ProofsCalc2 ProofsCalc3 ProofsCalc4 ProofsCalc5 ProofsCalc6 ProofsCalc7 ProofsCalc8 ProofsCalc9 ProofsCalc10 ProofsCalm ProofsCalm2 ProofsCommands ProofsCommands2 ProofsData ProofsTerminal8 ProofsMain ProofsMain2 ProofsTogether ProofsInterleave ProofsInterleave2 ProofsInterleave3 ProofsInterleave4 ProofsInterleave5 ProofsInterleave6 ProofsInterleave7 ProofsInterleave8 ProofsInterleave9 ProofsInterleave10.
From Coq Require Import String Permutation Lia.
Local Open Scope nat_scope.
Local Open Scope list_scope.

(** ** /reloadvar *)
Definition read_by (m : moment) (rd : str * option Q) : Prop := m_call m = GetVariable (fst rd) /\ true_of (m_pre m) rd.
Lemma row_filled rd : reading_row rd <> [].
Proof. destruct rd as [y [q|]]; cbn; [discriminate|]. destruct y; discriminate. Qed.
Lemma wp_readings names : forall out touched vars l,
  wp (fun l' (vr : vstore * outcome runtime_error (str * list str)) => exists lr rds, l' = l ++ lr /\ Forall2 read_by lr rds /\ map fst rds = names /\
        (forall y, vs_get (fst vr) y = last_read rds y (vs_get vars y)) /\ snd vr = Ok (joined out (map reading_row rds), touched ++ names)) l
     (reload_loop_io names out touched vars).
Proof.
  induction names as [|y names IH]; intros out touched vars l.
  - cbn [reload_loop_io wp fst snd]. exists [], []. rewrite !app_nil_r. split; [reflexivity|]. split; [constructor|]. split; [reflexivity|]. split; [reflexivity|]. destruct out; reflexivity.
  - cbn [reload_loop_io reload_io io_bind wp]. cbv zeta. intros m W C. cbn [io_bind fst snd].
    assert (Sh : forall q vars1 row, true_of (m_pre m) (y, q) -> (forall z, vs_get vars1 z = if str_eqb y z then match q with Some v => Some v | None => vs_get vars z end else vs_get vars z) ->
      row = reading_row (y, q) ->
      wp (fun l' (vr : vstore * outcome runtime_error (str * list str)) => exists lr rds, l' = l ++ lr /\ Forall2 read_by lr rds /\ map fst rds = y :: names /\
        (forall z, vs_get (fst vr) z = last_read rds z (vs_get vars z)) /\ snd vr = Ok (joined out (map reading_row rds), touched ++ y :: names)) (l ++ [m])
      (reload_loop_io names (match out with [] => [] | _ => out ++ nl end ++ row) (touched ++ [y]) vars1)).
    { intros q vars1 row Tr V Er. eapply wp_weaken; [apply IH|]. cbn. intros l' vr (lr & rds & -> & F & Em & Vm & Es). exists (m :: lr), ((y, q) :: rds).
      split; [rewrite <- app_assoc; reflexivity|]. split; [constructor; [split; [exact C|exact Tr]|exact F]|]. split; [cbn; congruence|]. split.
      - intros z. rewrite Vm. cbn [last_read fst snd]. rewrite (V z). reflexivity.
      - rewrite Es. rewrite <- app_assoc. cbn [map app]. do 2 f_equal. rewrite Er. apply joined_step, row_filled. }
    destruct (get_moment m y W C) as [(v & -> & D & _)|(-> & D)]; cbn [value_of].
    + apply (Sh (Some v)); [exact D| |cbn; rewrite fraction_same; reflexivity]. intros z. rewrite vs_get_insert. destruct (str_eqb z y) eqn:Q.
      * apply str_eqb_eq in Q as ->. rewrite str_eqb_refl. reflexivity.
      * destruct (str_eqb y z) eqn:Q2; [|reflexivity]. apply str_eqb_eq in Q2 as ->. rewrite str_eqb_refl in Q. discriminate Q.
    + apply (Sh None); [exact D| |reflexivity]. intros z. destruct (str_eqb y z); reflexivity.
Qed.

(** ** /purgevar *)
Definition purged_by (m : moment) (y : str) : Prop := m_call m = ClearVariable y /\ not_on_disk (m_post m) y.
Lemma clear_moment m y : well m -> m_call m = ClearVariable y -> m_reply m = RDone /\ not_on_disk (m_post m) y.
Proof.
  intros (_ & st & _ & E & R') C. rewrite C in E, R'. cbn [spec_call snd fst] in E, R'. split; [exact E|]. intros r I Nm. destruct (rp_vars _ _ R') as (_ & B & K). destruct (B r I) as (q & H).
  assert (X : set_var (st_vars st) y None y = Some (q, v_used r)) by (apply K; eauto). unfold set_var in X. rewrite str_eqb_refl in X. discriminate X.
Qed.
Lemma wp_purges names : forall vars l,
  wp (fun l' (vr : vstore * outcome runtime_error unit) => exists lp, l' = l ++ lp /\ Forall2 purged_by lp names /\ snd vr = Ok tt /\
        forall y, (In y names -> vs_get (fst vr) y = None) /\ (~ In y names -> vs_get (fst vr) y = vs_get vars y)) l (purge_loop_io names vars).
Proof.
  induction names as [|y names IH]; intros vars l.
  - cbn [purge_loop_io wp fst snd]. exists []. rewrite app_nil_r. split; [reflexivity|]. split; [constructor|]. split; [reflexivity|]. intros y. split; [intros []|reflexivity].
  - cbn [purge_loop_io purge_io io_bind wp]. intros m W C. destruct (clear_moment m y W C) as (-> & D). cbn [done_of fst snd io_bind]. eapply wp_weaken; [apply IH|].
    cbn. intros l' vr (lp & -> & F & Es & V). exists (m :: lp). split; [rewrite <- app_assoc; reflexivity|]. split; [constructor; [split; assumption|exact F]|]. split; [exact Es|].
    intros z. destruct (V z) as (V1 & V2). destruct (in_dec (list_eq_dec N.eq_dec) z names) as [I|I].
    + split; [intros _; apply V1, I|intros X; destruct X; right; exact I].
    + rewrite (V2 I), vs_get_remove. destruct (str_eqb z y) eqn:Q.
      * split; [reflexivity|]. apply str_eqb_eq in Q as ->. intros X. destruct X. left. reflexivity.
      * split; [|reflexivity]. intros [->|X]; [rewrite str_eqb_refl in Q; discriminate Q|destruct (I X)].
Qed.

(** ** Lines *)
Lemma wp_recorded pr ord x line a h vars (R : list moment -> line_answer -> Prop) : @current_line runtime_error h = Ok line ->
  (forall m0 id h', well m0 -> m_call m0 = AddInput line -> m_reply m0 = RId id ->
     wp (fun l (avr : args * vstore * outcome failure str) => R l (fst (fst avr), h', snd (fst avr), snd avr)) [m0] (body_io pr ord x line id a vars)) ->
  wp R [] (line_io pr ord x line a h vars).
Proof.
  intros L H. unfold line_io. rewrite L. cbv zeta. cbn [wp app]. intros m0 W0 C0. destruct (add_moment m0 line W0 C0) as (id & E & _).
  rewrite E. cbn [id_of]. eapply wp_bind; [apply (H m0 id (mkIH (ih_internal h ++ [line]) (ih_db h) [Some []] 0 (ih_exhausted h)) W0 C0 E)|]. cbn [wp]. auto.
Qed.

Section Line.
  Context (pr : profile) (ord : nat -> nat -> list str -> list str) (x : executor) (tm : nat -> terminal).
  Context (Ho : forall i n, iterates (ord i n)).
  Notation rstep := (room_step pr ord x tm).
  Notation rrun := (room_run pr ord x tm).
  Notation files := (room_files pr ord x tm).
  Notation at_ := (placed pr ord x tm).

  Lemma line_trace i mods between w u u' e out (R : str -> Z -> list moment -> args -> vstore -> outcome failure str -> Prop) :
    calm_room w -> Forall proper_turn between -> Forall calm_turn between -> processes pr ord x tm w i mods between u u' e out ->
    (forall line m0 id, shown (u_inputs u) = Ok line -> well m0 -> m_call m0 = AddInput line -> m_reply m0 = RId id -> valid_settings (u_args u) -> vars_ok (u_vars u) ->
       wp (fun l (avr : args * vstore * outcome failure str) => R line id l (fst (fst avr)) (snd (fst avr)) (snd avr)) [m0] (body_io pr (ord i (u_count u)) x line id (u_args u) (u_vars u))) ->
    exists line id l r, shown (u_inputs u) = Ok line /\ Forall well l /\ at_ i l (line_turns i mods between) w /\ R line id l (u_args u') (u_vars u') r /\ replied u u' e out r.
  Proof.
    intros Cw Pp Cc Pr H. pose proof Pr as (Sk & _). destruct (proj2 (proj1 Cw) i _ Sk) as (_ & G). specialize (G eq_refl). destruct (parts_of_good _ G) as (A & V). cbn [u_args u_vars with_file] in A, V.
    destruct (process_trace pr ord x tm Ho i (fun l ans => Forall well l /\ exists line id, shown (u_inputs u) = Ok line /\ R line id l (fst (fst (fst ans))) (snd (fst ans)) (snd ans)) mods between w u u' e out Cw Pp Cc Pr) as (line & L & T).
    destruct T as (u1 & sd1 & ans & l0 & m & (Wl & line0 & id & L0 & Q) & Su & Ed & E1 & E2 & Ea & Pl).
    { eapply wp_weaken; [apply wp_and; [apply (wp_well _ [])|apply wp_recorded with (R := fun l ans => exists id, R line id l (fst (fst (fst ans))) (snd (fst ans)) (snd ans)); [exact L|]]|].
      - intros m0 id h' W0 C0 R0. eapply wp_weaken; [apply (H line m0 id L W0 C0 R0 A V)|]. cbn. eauto.
      - cbn. intros l' a' ((l'' & -> & F) & id & X). eauto. }
    destruct ans as [[[a' h'] vars'] r]. cbn [fst snd] in Q. pose proof (answered _ _ _ _ _ _ _ _ Ea) as (Aa & Av & Ar). destruct Su as (S1 & S2 & S3 & S4 & S5).
    exists line0, id, (l0 ++ [m]), r. split; [exact L0|]. split; [exact Wl|]. split; [exact Pl|]. rewrite Aa, Av. split; [exact Q|]. apply replied_of. rewrite S1, S5. exact Ar.
  Qed.

  Lemma files_cut d turns w : removelast (d :: files turns w) = d :: removelast (files turns w).
  Proof. destruct turns; reflexivity. Qed.
  (** The readings of a line, among the files. *)
  Lemma placed_readings i l turns : forall w lr rds rest pre, at_ i l turns w -> l = pre ++ lr ++ rest -> Forall2 read_by lr rds -> read_in_turn (removelast (files turns w)) rds.
  Proof.
    intros w lr rds rest pre H. revert lr rds rest pre. induction H as [w|l tn turns w N H IH|m l turns w u k S1 S2 S3 H IH]; intros lr rds rest pre E F; cbn [room_files]; rewrite ?files_cut.
    - destruct pre; [|discriminate E]. destruct lr; [|discriminate E]. inversion F. constructor.
    - apply rt_wait. eapply IH; eassumption.
    - destruct pre as [|m1 pre]; [destruct lr as [|m1 lr]|]; cbn [app] in E.
      + inversion F. constructor.
      + injection E as <- E. inversion F as [|m0 rd lr0 rds0 Rb F2]; subst. apply rt_read; [rewrite <- S2; apply Rb|]. eapply (IH lr rds0 rest []); [reflexivity|exact F2].
      + injection E as <- E. apply rt_wait. eapply IH; eassumption.
  Qed.
End Line.

(** ** The commands *)
Lemma wp_assoc {A B C} (P : list moment -> C -> Prop) (t : io A) (f : A -> io B) (g : B -> io C) : forall l,
  wp P l (io_bind t (fun a => io_bind (f a) g)) -> wp P l (io_bind (io_bind t f) g).
Proof. induction t as [a|c k IH]; intros l H; [exact H|]. cbn [io_bind wp] in *. intros m W E. apply IH, H; assumption. Qed.
Definition finish_command (id : Z) (avr : command_answer) : io (args * vstore * outcome failure str) :=
  let '(a', vars', r) := avr in
  match r with
  | Ok (message, vars_touched) =>
      io_bind (touch_loop_io vars_touched id) (fun r => Finished (a', vars', match lift_rt r with Ok _ => Ok message | Err e => Err e | Panic p => Panic p end))
  | Err e => Finished (a', vars', Err e)
  | Panic p => Finished (a', vars', Panic p)
  end.
Lemma command_body_io pr ord line id a vars name arguments c : is_command (a_radix a) line name arguments -> resolve_in name = Some c ->
  exists arg, pd_value arg = arguments /\ body_io pr ord the_executor line id a vars = io_bind (command_io pr ord the_executor c arg a vars) (finish_command id).
Proof.
  intros (n & arg & T & En & Ea) R. exists arg. split; [exact Ea|]. unfold body_io. rewrite T. unfold execute_io. unfold resolve_in in R. rewrite En, R. reflexivity.
Qed.

Section Commands.
  Context (pr : profile) (ord : nat -> nat -> list str -> list str) (tm : nat -> terminal).
  Context (Ho : forall i n, iterates (ord i n)).
  Notation rstep := (room_step pr ord the_executor tm).
  Notation rrun := (room_run pr ord the_executor tm).
  Notation files := (room_files pr ord the_executor tm).
  Notation at_ := (placed pr ord the_executor tm).

  Lemma reload_interleaved w i mods between u u' e out line arguments : calm_room w -> Forall proper_turn between -> Forall calm_turn between ->
    processes pr ord the_executor tm w i mods between u u' e out -> shown (u_inputs u) = Ok line -> is_command (a_radix (u_args u)) line (lit "reloadvar") arguments ->
    exists r, replied u u' e out r /\ u_args u' = u_args u /\
      ((exists names rds, variable_list arguments names /\ each_once names (map fst rds) /\ read_in_turn (files (Receives i (EvKey KEnter mods) :: between) w) rds /\
          (forall y, vs_get (u_vars u') y = last_read rds y (vs_get (u_vars u) y)) /\
          (r = Ok (join_rows (map reading_row rds)) \/ exists re, r = Err (RuntimeError re))) \/
       ((forall names, ~ variable_list arguments names) /\ (exists msg, r = Err (InputError msg)) /\ u_vars u' = u_vars u)).
  Proof.
    intros Cw Pp Cc Pr L Hc.
    destruct (line_trace pr ord the_executor tm Ho i mods between w u u' e out (fun _ _ l a' vars' r => a' = u_args u /\
      ((exists names rds l0 lr lt, variable_list arguments names /\ each_once names (map fst rds) /\ l = l0 ++ lr ++ lt /\ Forall2 read_by lr rds /\
          (forall y, vs_get vars' y = last_read rds y (vs_get (u_vars u) y)) /\ (r = Ok (join_rows (map reading_row rds)) \/ exists re, r = Err (RuntimeError re))) \/
       ((forall names, ~ variable_list arguments names) /\ (exists msg, r = Err (InputError msg)) /\ vars' = u_vars u))) Cw Pp Cc Pr) as (line0 & id & l & r & _ & _ & Pl & (Ea & H) & Rp).
    { intros line0 m0 id L0 W0 C0 R0 A V. assert (line0 = line) by congruence. subst line0.
      destruct (command_body_io pr (ord i (u_count u)) line id (u_args u) (u_vars u) _ _ CReloadVar Hc ltac:(vm_compute; reflexivity)) as (arg & Earg & ->). cbn [command_io]. rewrite Earg.
      destruct (tokenize_variable_list arguments) as [vs|er|p] eqn:T.
      - apply wp_assoc. eapply wp_bind; [apply wp_readings|].
        cbn beta. intros l' [vars' o] (lr & rds & -> & F & Em & Vm & Es). cbn [fst snd] in *. subst o. cbn [io_bind lift_rt map_err finish_command].
        eapply wp_bind; [apply wp_touches; discriminate|]. cbn. intros l2 rt ((l3 & ->) & Hr). split; [reflexivity|]. left. exists (map pd_value vs), rds, [m0], lr, l3.
        split; [apply variable_list_iff; eauto|]. split; [rewrite Em; apply names_once, Ho|]. split; [reflexivity|]. split; [exact F|]. split; [exact Vm|].
        destruct Hr as [->|(-> & _)]; cbn [lift_rt]; [left; reflexivity|right; eexists; reflexivity].
      - cbn. split; [reflexivity|]. right. split; [|split; [eexists; reflexivity|reflexivity]]. intros names X. apply variable_list_iff in X as (l0 & X & _). congruence.
      - destruct (proj2 (tokenize_variable_list_spec arguments) p T). }
    exists r. split; [exact Rp|]. split; [exact Ea|]. destruct H as [(names & rds & l0 & lr & lt & H1 & H2 & El & F & H3 & H4)|H]; [left|right; exact H].
    exists names, rds. repeat (split; [assumption|]). split; [|auto]. rewrite <- (files_last pr ord the_executor tm _ (Goes i)). eapply placed_readings; eassumption.
  Qed.

  Lemma purge_interleaved w i mods between u u' e out line arguments : calm_room w -> Forall proper_turn between -> Forall calm_turn between ->
    processes pr ord the_executor tm w i mods between u u' e out -> shown (u_inputs u) = Ok line -> is_command (a_radix (u_args u)) line (lit "purgevar") arguments ->
    exists r, replied u u' e out r /\ u_args u' = u_args u /\
      ((exists names, variable_list arguments names /\ r = Ok (lit "Done") /\
          (forall y, (In y names -> vs_get (u_vars u') y = None) /\ (~ In y names -> vs_get (u_vars u') y = vs_get (u_vars u) y)) /\
          forall y, In y names -> exists first rest, line_turns i mods between = first ++ Goes i :: rest /\ not_on_disk (r_file (rrun (first ++ [Goes i]) w)) y) \/
       ((forall names, ~ variable_list arguments names) /\ (exists msg, r = Err (InputError msg)) /\ u_vars u' = u_vars u)).
  Proof.
    intros Cw Pp Cc Pr L Hc.
    destruct (line_trace pr ord the_executor tm Ho i mods between w u u' e out (fun _ _ l a' vars' r => a' = u_args u /\
      ((exists names, variable_list arguments names /\ r = Ok (lit "Done") /\
          (forall y, (In y names -> vs_get vars' y = None) /\ (~ In y names -> vs_get vars' y = vs_get (u_vars u) y)) /\
          forall y, In y names -> exists m, In m l /\ not_on_disk (m_post m) y) \/
       ((forall names, ~ variable_list arguments names) /\ (exists msg, r = Err (InputError msg)) /\ vars' = u_vars u))) Cw Pp Cc Pr) as (line0 & id & l & r & _ & _ & Pl & (Ea & H) & Rp).
    { intros line0 m0 id L0 W0 C0 R0 A V. assert (line0 = line) by congruence. subst line0.
      destruct (command_body_io pr (ord i (u_count u)) line id (u_args u) (u_vars u) _ _ CPurgeVar Hc ltac:(vm_compute; reflexivity)) as (arg & Earg & ->). cbn [command_io]. rewrite Earg.
      destruct (tokenize_variable_list arguments) as [vs|er|p] eqn:T.
      - apply wp_assoc. eapply wp_bind; [apply wp_purges|].
        cbn beta. intros l' [vars' o] (lp & -> & F & Es & Vm). cbn [fst snd] in *. subst o. cbn [io_bind finish_command touch_loop_io io_bind lift_rt map_err wp fst snd].
        assert (Hin : forall y, In y (ord i (u_count u) (name_set vs)) <-> In y (map pd_value vs)) by (intros y; apply in_names, Ho).
        split; [reflexivity|]. left. exists (map pd_value vs). split; [apply variable_list_iff; eauto|]. split; [reflexivity|]. split; [intros y; rewrite <- Hin; apply Vm|].
        intros y I. apply Hin in I. clear - F I. induction F as [|m z lp names (_ & D) F IH]; [destruct I|]. destruct I as [->|I].
        + exists m. split; [right; left; reflexivity|exact D].
        + destruct (IH I) as (m1 & [<-|I1] & D1); [exists m0|exists m1]; (split; [|exact D1]); [left; reflexivity|right; right; exact I1].
      - cbn. split; [reflexivity|]. right. split; [|split; [eexists; reflexivity|reflexivity]]. intros names X. apply variable_list_iff in X as (l0 & X & _). congruence.
      - destruct (proj2 (tokenize_variable_list_spec arguments) p T). }
    exists r. split; [exact Rp|]. split; [exact Ea|]. destruct H as [(names & H1 & H2 & H3 & H4)|H]; [left|right; exact H].
    exists names. repeat (split; [assumption|]). intros y I. destruct (H4 y I) as (m & Im & D). apply in_split in Im as (l1 & l2 & ->).
    destruct (placed_split pr ord the_executor tm i l1 m l2 _ _ Pl) as (a & b & -> & _ & Ep & _). exists a, b. split; [reflexivity|]. rewrite <- Ep. exact D.
  Qed.

  Lemma histcap_interleaved w i mods between u u' e out line arguments : calm_room w -> Forall proper_turn between -> Forall calm_turn between ->
    processes pr ord the_executor tm w i mods between u u' e out -> shown (u_inputs u) = Ok line -> is_command (a_radix (u_args u)) line (lit "histcap") arguments ->
    exists r, replied u u' e out r /\ u_args u' = u_args u /\ u_vars u' = u_vars u /\
      ((integers arguments [] /\ exists d cap, In d (files (Receives i (EvKey KEnter mods) :: between) w) /\ capacity d cap /\ r = Ok (in_decimal cap)) \/
       (exists n, integers arguments [n] /\ (1 <= n)%Z /\ r = Ok (lit "Done") /\ capacity (r_file (rrun (line_turns i mods between) w)) n) \/
       (~ integers arguments [] /\ (forall n, integers arguments [n] -> (n < 1)%Z) /\ exists msg, r = Err (InputError msg))).
  Proof.
    intros Cw Pp Cc Pr L Hc.
    destruct (line_trace pr ord the_executor tm Ho i mods between w u u' e out (fun _ _ l a' vars' r => a' = u_args u /\ vars' = u_vars u /\
      ((integers arguments [] /\ exists m cap, In m l /\ capacity (m_pre m) cap /\ r = Ok (in_decimal cap)) \/
       (exists n, integers arguments [n] /\ (1 <= n)%Z /\ r = Ok (lit "Done") /\ exists l0 m, l = l0 ++ [m] /\ capacity (m_post m) n) \/
       (~ integers arguments [] /\ (forall n, integers arguments [n] -> (n < 1)%Z) /\ exists msg, r = Err (InputError msg)))) Cw Pp Cc Pr) as (line0 & id & l & r & _ & _ & Pl & (Ea & Ev & H) & Rp).
    { intros line0 m0 id L0 W0 C0 R0 A V. assert (line0 = line) by congruence. subst line0.
      destruct (command_body_io pr (ord i (u_count u)) line id (u_args u) (u_vars u) _ _ CHistCap Hc ltac:(vm_compute; reflexivity)) as (arg & Earg & ->). cbn [command_io]. rewrite Earg.
      destruct (tokenize_int_list pr arguments 10) as [[|k [|j vs]]|er|p] eqn:T; try (pose proof (fun zs => integers_inj _ _ _ zs T) as J; cbn [map] in J).
      - cbn [io_bind wp]. intros m (_ & st & Rp & E & _) C. rewrite C in E. cbn [spec_call snd] in E. rewrite E. cbn [max_of io_bind finish_command touch_loop_io wp fst snd lift_rt map_err].
        split; [reflexivity|]. split; [reflexivity|]. left. split; [apply J; reflexivity|]. exists m, (st_cap st). split; [right; left; reflexivity|]. split; [exact (rp_cap _ _ Rp)|]. rewrite show_Z_decimal. reflexivity.
      - unfold validate_max_history_size. destruct (Z.ltb_spec (pd_value k) 1) as [X|X].
        + cbn. split; [reflexivity|]. split; [reflexivity|]. right; right. split; [rewrite J; discriminate|]. split; [|eexists; reflexivity]. intros n Hn. apply J in Hn. injection Hn as ->. exact X.
        + cbn [io_bind wp]. intros m (_ & st & Rp & E & R') C. rewrite C in E, R'. cbn [spec_call] in E, R'. destruct (Z.ltb_spec (pd_value k) 1) as [Y|_]; [lia|]. cbn [snd fst] in E, R'. rewrite E.
          cbn [done_of io_bind finish_command touch_loop_io wp fst snd lift_rt map_err]. split; [reflexivity|]. split; [reflexivity|]. right; left. exists (pd_value k).
          split; [apply J; reflexivity|]. split; [exact X|]. split; [reflexivity|]. exists [m0], m. split; [reflexivity|]. exact (rp_cap _ _ R').
      - cbn. split; [reflexivity|]. split; [reflexivity|]. right; right. split; [rewrite J; discriminate|]. split; [|eexists; reflexivity]. intros n Hn. apply J in Hn. discriminate Hn.
      - assert (N : forall zs, ~ integers arguments zs) by (intros zs; apply (integers_none pr); rewrite T; discriminate).
        cbn. split; [reflexivity|]. split; [reflexivity|]. right; right. split; [apply N|]. split; [|eexists; reflexivity]. intros n Hn. destruct (N _ Hn).
      - destruct (proj2 (tokenize_int_list_spec pr arguments 10 eq_refl) p T). }
    exists r. split; [exact Rp|]. split; [exact Ea|]. split; [exact Ev|]. destruct H as [(H1 & m & cap & I & C & Er)|[(n & H1 & H2 & Er & l0 & m & El & C)|H]].
    - left. split; [exact H1|]. exists (m_pre m), cap. split; [|auto]. rewrite <- (files_last pr ord the_executor tm _ (Goes i)). eapply placed_file; eassumption.
    - right; left. exists n. repeat (split; [assumption|]). subst l. destruct (placed_split pr ord the_executor tm i l0 m [] _ _ Pl) as (a & b & Et & _ & Ep & _ & Pb).
      unfold line_turns in Et |- *. assert (b = []) as ->.
      { clear - Et Pb. destruct b as [|t b] using rev_ind; [reflexivity|]. exfalso. clear IHb. replace (a ++ Goes i :: b ++ [t]) with ((a ++ Goes i :: b) ++ [t]) in Et by (rewrite <- app_assoc; reflexivity).
        rewrite app_comm_cons in Et. apply app_inj_tail in Et as (_ & <-). clear - Pb. set (w' := rrun (a ++ [Goes i]) w) in Pb. clearbody w'. revert w' Pb. induction b as [|t b IH]; intros w' H.
        - inversion H as [|? ? ? ? N _|]; subst. destruct (N eq_refl).
        - inversion H; subst. eapply IH. eassumption. }
      rewrite Et. rewrite <- Ep. exact C.
    - right; right. exact H.
  Qed.
End Commands.
