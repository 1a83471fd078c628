(** ProofsInterleave12.v -- interleaved calls (C92, C93): lines that do not look at the saved data; what a program does to the file. *)
From Verif Require Import Base Position Num TokenTypes Errors Token Operations SavedData Variables InputHistory
  SyntaxTree Commands Calculate Editor Sessions Main Io Together Interleave SpecGrammar SpecEval SpecHistory SpecSyntax SpecEditor SpecCalc SpecSession SpecCommands SpecData SpecMain SpecTogether SpecInterleave.
From Verif Require Import ProofsNum ProofsLex ProofsLex2 ProofsEval ProofsDb ProofsDb2 ProofsDb3 ProofsDb4 ProofsDb5 ProofsEditor4 ProofsCalc ProofsCalc2 ProofsCalc3 ProofsCalc4 ProofsCalc5 ProofsCalc6 ProofsCalc7 ProofsCalc8 ProofsCalc9 ProofsCalc10 ProofsCalm ProofsCalm2 ProofsCommands ProofsCommands2 ProofsData ProofsTerminal8 ProofsMain ProofsMain2 ProofsTogether ProofsInterleave ProofsInterleave2 ProofsInterleave3 ProofsInterleave4 ProofsInterleave5 ProofsInterleave6 ProofsInterleave7 ProofsInterleave8 ProofsInterleave9 ProofsInterleave10 ProofsInterleave11 ProofsIo.
From Coq Require Import String Permutation Lia.
Local Open Scope nat_scope.
Local Open Scope list_scope.

(** ** Lines that make no call but the recording *)
Lemma quiet_body pr ord a vars line : (forall ts, ~ is_expression (a_radix a) line ts) ->
  (forall name arguments, is_command (a_radix a) line name arguments -> ~ In name [lit "reloadvar"; lit "purgevar"; lit "histcap"]) ->
  exists a' r, forall id, body_io pr ord the_executor line id a vars = Finished (a', vars, r).
Proof.
  intros Ne Nc. unfold body_io. destruct (tokenize line (a_radix a)) as [[ts|name arg]|e|p] eqn:T; [destruct (Ne ts T)| |eauto..].
  specialize (Nc (pd_value name) (pd_value arg) (ex_intro _ name (ex_intro _ arg (conj T (conj eq_refl eq_refl))))). unfold execute_io. fold (resolve_in (pd_value name)).
  destruct (resolve_in (pd_value name)) as [c|] eqn:R; [|cbn; eauto].
  assert (K : keeps_state c = true).
  { assert (P : command_aliases c = [] -> pd_value name = command_name c) by (intros A; apply (resolves_plain name c A); exact R).
    destruct c; try reflexivity; exfalso; apply Nc; rewrite (P eq_refl); [left|right; left|right; right; left]; reflexivity. }
  assert (E : command_io pr ord the_executor c arg a vars = let '(a', _, r) := run_command pr ord the_executor c arg a (mkEnv (Some vars) (Some some_handle)) in Finished (a', vars, r)) by (destruct c; try discriminate K; reflexivity).
  rewrite E. destruct (run_command _ _ _ _ _ _ _) as [[a' s'] r] eqn:Rc. destruct (setting_keeps _ _ _ _ _ _ _ _ _ _ K Rc) as (_ & Tz & _). cbn [io_bind].
  destruct r as [[m t]|er|p]; [|eauto..]. rewrite (Tz m t eq_refl). cbn. eauto.
Qed.

Section Quiet.
  Context (pr : profile) (ord : nat -> nat -> list str -> list str) (tm : nat -> terminal).
  Context (Ho : forall i n, iterates (ord i n)).
  Lemma quiet_interleaved w i mods between u u' e out line : calm_room w -> Forall proper_turn between -> Forall calm_turn between ->
    processes pr ord the_executor tm w i mods between u u' e out -> shown (u_inputs u) = Ok line ->
    (forall ts, ~ is_expression (a_radix (u_args u)) line ts) ->
    (forall name arguments, is_command (a_radix (u_args u)) line name arguments -> ~ In name [lit "reloadvar"; lit "purgevar"; lit "histcap"]) ->
    exists r, replied u u' e out r /\ u_vars u' = u_vars u /\
      forall sd, program_file (sd_db sd) -> ~ In true (sd_faults sd) ->
        let answer := calculate pr (ord i (u_count u)) the_executor line (mkSession (u_args u) (Some (u_inputs u)) (mkEnv (Some (u_vars u)) (Some sd))) in
        snd answer = r /\ s_args (fst answer) = u_args u'.
  Proof.
    intros Cw Pp Cc Pr L Ne Nc. destruct (quiet_body pr (ord i (u_count u)) (u_args u) (u_vars u) line Ne Nc) as (a' & r & B).
    destruct (line_trace pr ord the_executor tm Ho i mods between w u u' e out (fun _ _ _ a1 vars1 r1 => a1 = a' /\ vars1 = u_vars u /\ r1 = r) Cw Pp Cc Pr) as (line0 & id & l & r0 & _ & _ & _ & (Ea & Ev & ->) & Rp).
    { intros line0 m0 id L0 W0 C0 R0 A V. assert (line0 = line) by congruence. subst line0. rewrite B. cbn. auto. }
    exists r. split; [exact Rp|]. split; [exact Ev|]. intros sd Pf Cm. cbv zeta. fold (both (u_vars u) sd). rewrite line_alone. unfold line_io. unfold shown in L. rewrite L. cbv zeta. cbn [alone perform].
    destruct (add_to_input_history line sd) as [sd' o] eqn:Ad. destruct (add_calm _ _ _ _ Cm Pf Ad) as (id0 & -> & _). cbn [fst snd reply_of id_of]. rewrite B. cbn. auto.
  Qed.
End Quiet.

(** ** What the calls of a line do to the file *)
Definition own_call (radix : N) (line : str) (id : Z) (c : call) : Prop :=
  match c with
  | GetVariable _ | GetMax => True
  | TouchVariable y k => k = id /\ line_uses radix line y
  | SetVariable y _ k => k = id /\ line_assigns radix line y
  | ClearVariable y => line_purges radix line y
  | SetMax n => line_resizes radix line n
  | Open | AddInput _ | PrevInput => False
  end.
Lemma calls_weaken {A} (P R : call -> Prop) (t : io A) : (forall c, P c -> R c) -> calls P t -> calls R t.
Proof. intros H. induction t as [a|c k IH]; [auto|]. intros (H1 & H2). split; [auto|]. intros r. apply IH, H2. Qed.
Section Own.
  Context (pr : profile) (ord : list str -> list str) (Ho : iterates ord) (radix : N) (line : str) (id : Z).
  Notation own := (own_call radix line id).
  Lemma own_touches names : (forall y, In y names -> line_uses radix line y) -> calls own (touch_loop_io names id).
  Proof.
    induction names as [|y names IH]; intros H; [exact I|]. cbn [touch_loop_io touch_io io_bind]. split; [split; [reflexivity|apply H; left; reflexivity]|]. intros r. cbn. destruct (done_of r); [|exact I..]. apply IH. intros z Hz. apply H. right. exact Hz.
  Qed.
  Lemma own_reload vars y : calls own (reload_io vars y).
  Proof. split; [exact I|]. intros r. exact I. Qed.
  Lemma own_exec a n : forall vars, calls own (exec_io pr a n vars).
  Proof.
    induction n as [v p|y p|o p n IH|o p n1 n2 IH1 IH2|f p ns q IH|p q n IH] using node_in; intros vars.
    - exact I.
    - cbn [exec_io]. unfold variable_io. apply calls_bind; [|intros; exact I]. unfold lookup_io. destruct (vs_get vars y); [exact I|apply own_reload].
    - cbn [exec_io]. apply calls_then; [apply IH|intros; exact I].
    - cbn [exec_io]. apply calls_then; [apply IH1|]. intros. apply calls_then; [apply IH2|intros; exact I].
    - rewrite fun_io. apply calls_then; [|intros; exact I]. revert vars. induction ns as [|m ns IHn]; intros vars; [exact I|]. cbn [list_io].
      apply calls_then; [apply IH; left; reflexivity|]. intros. apply calls_then; [apply IHn; intros n Hn; apply IH; right; exact Hn|intros; exact I].
    - cbn [exec_io]. apply IH.
  Qed.
  Lemma own_reloads names : forall out touched vars, calls own (reload_loop_io names out touched vars).
  Proof.
    induction names as [|y names IH]; intros out touched vars; [exact I|]. cbn [reload_loop_io]. cbv zeta. apply calls_bind; [apply own_reload|].
    intros [vars' [[v|]|e|p]]; cbn [fst snd]; [apply IH|apply IH|exact I..].
  Qed.
  Lemma own_purges names : (forall y, In y names -> line_purges radix line y) -> forall vars, calls own (purge_loop_io names vars).
  Proof.
    induction names as [|y names IH]; intros H vars; [exact I|]. cbn [purge_loop_io purge_io io_bind]. split; [apply H; left; reflexivity|]. intros r. cbn [fst snd io_bind]. destruct (done_of r); [|exact I..]. apply IH. intros z Hz. apply H. right. exact Hz.
  Qed.
End Own.

Fixpoint ends {A} (R : A -> Prop) (t : io A) : Prop := match t with Finished a => R a | Ask _ k => forall r, ends R (k r) end.
Lemma calls_bind_ends {A B} P (R : A -> Prop) (t : io A) (f : A -> io B) : calls P t -> ends R t -> (forall a, R a -> calls P (f a)) -> calls P (io_bind t f).
Proof. induction t as [a|c k IH]; intros H E F; [apply F, E|]. destruct H as (H & K). split; [exact H|]. intros r. apply IH; [apply K|apply E|exact F]. Qed.
Lemma ends_bind {A B} (R : B -> Prop) (t : io A) (f : A -> io B) : (forall a, ends R (f a)) -> ends R (io_bind t f).
Proof. intros F. induction t as [a|c k IH]; [apply F|]. cbn. intros r. apply IH. Qed.
Lemma ends_reloads names : forall out touched vars, ends (fun vr : vstore * outcome runtime_error (str * list str) => forall o t, snd vr = Ok (o, t) -> t = touched ++ names) (reload_loop_io names out touched vars).
Proof.
  assert (W : forall A (P R : A -> Prop) (t : io A), (forall a, P a -> R a) -> ends P t -> ends R t) by (intros A P R t H; induction t as [a|c k IH]; cbn; auto).
  induction names as [|y names IH]; intros out touched vars; [cbn; intros o t [= _ <-]; rewrite app_nil_r; reflexivity|]. cbn [reload_loop_io reload_io io_bind ends]. cbv zeta. intros r. cbn [io_bind fst snd].
  destruct (value_of r) as [[v|]|e|p]; [| |cbn; discriminate..]; (eapply W; [|apply IH]; cbn; intros [vars' o] H o' t E; rewrite (H o' t E), <- app_assoc; reflexivity).
Qed.
Lemma own_body pr ord a vars line id : iterates ord -> calls (own_call (a_radix a) line id) (body_io pr ord the_executor line id a vars).
Proof.
  intros Ho. assert (Hin : forall l y, In y (ord l) -> In y l) by (intros l y; apply Permutation_in, Ho).
  unfold body_io. destruct (tokenize line (a_radix a)) as [[ts|name arg]|e|p] eqn:T; [| |exact I..].
  - apply calls_bind; [apply own_touches; intros y Iy; left; exists ts; split; [exact T|]; apply Hin in Iy|].
    + apply ProofsTouch.token_variables_in in Iy. exact Iy.
    + intros [u|e|p]; [|exact I..]. destruct ts as [|t0 ts']; [exact I|]. destruct (syntax_tree_new _) as [t|e|p] eqn:St; [|exact I..].
      apply calls_bind; [|intros; exact I]. unfold tree_io. apply calls_then; [apply own_exec|]. intros v vars1. destruct t as [[v0|] n]; cbn [st_var]; [|exact I]. split; [|intros; exact I].
      split; [reflexivity|]. apply ProofsParse2.parse_iff in St. inversion St; subst. eexists _, n. split; [exact T|]. do 3 eexists. split; [reflexivity|assumption].
  - unfold execute_io. fold (resolve_in (pd_value name)). destruct (resolve_in (pd_value name)) as [c|] eqn:R; [|exact I].
    assert (P : command_aliases c = [] -> pd_value name = command_name c) by (intros A; apply (resolves_plain name c A); exact R).
    assert (Q : keeps_state c = true -> forall f, (forall a' r, (forall m t, r = Ok (m, t) -> t = []) -> calls (own_call (a_radix a) line id) (f (a', vars, r))) ->
      calls (own_call (a_radix a) line id) (@io_bind command_answer (args * vstore * outcome failure str) (let '(a', _, r) := run_command pr ord the_executor c arg a (mkEnv (Some vars) (Some some_handle)) in Finished (a', vars, r)) f)).
    { intros K f F. destruct (run_command _ _ _ _ _ _ _) as [[a' s'] r] eqn:Rc. apply F. apply (setting_keeps _ _ _ _ _ _ _ _ _ _ K Rc). }
    assert (IsC : forall nm, command_name c = nm -> command_aliases c = [] -> is_command (a_radix a) line nm (pd_value arg)) by (intros nm <- A; exists name, arg; split; [exact T|]; split; [apply P, A|reflexivity]).
    destruct c; try (apply Q; [reflexivity|]; intros a' r Z; destruct r as [[m t]|er|p]; [|exact I..]; rewrite (Z m t eq_refl); exact I); clear Q.
    + cbn [command_io]. destruct (tokenize_variable_list _) as [l|er|p] eqn:V; [|exact I..].
      eapply calls_bind_ends with (R := fun avr : command_answer => forall o t, snd avr = Ok (o, t) -> forall y, In y t -> line_uses (a_radix a) line y).
      * apply calls_bind; [apply own_reloads|intros; exact I].
      * pose proof (ends_reloads (ord (name_set l)) [] [] vars) as E. revert E. generalize (reload_loop_io (ord (name_set l)) [] [] vars). intros t E. induction t as [vr|c k IH]; [|cbn [io_bind ends]; intros r; apply IH, E].
        cbn [io_bind ends snd] in *. destruct vr as [vars' [[o t]|er|p]]; cbn [snd lift_rt map_err]; [|discriminate..]. intros o' t' [= _ <-] y Iy. rewrite (E o t eq_refl) in Iy. apply Hin, name_set_in in Iy.
        right. exists (pd_value arg), (map pd_value l). split; [apply IsC; reflexivity|]. split; [apply variable_list_iff; eauto|exact Iy].
      * intros [[a' vars'] [[m t]|er|p]] H; [|exact I..]. apply calls_bind; [apply own_touches; exact (H m t eq_refl)|intros; exact I].
    + cbn [command_io]. destruct (tokenize_variable_list _) as [l|er|p] eqn:V; [|exact I..]. eapply calls_bind_ends with (R := fun avr : command_answer => forall o t, snd avr = Ok (o, t) -> t = []).
      * apply calls_bind; [apply own_purges|intros; exact I].
        intros y Iy. apply Hin, name_set_in in Iy. exists (pd_value arg), (map pd_value l). split; [apply IsC; reflexivity|]. split; [apply variable_list_iff; eauto|exact Iy].
      * apply ends_bind. intros [vars' [u|er|p]]; cbn [ends snd]; [|discriminate..]. intros o t E. apply ok_inj, pair_equal_spec in E as [_ E]. congruence.
      * intros [[a' vars'] [[m t]|er|p]] H; [|exact I..]. rewrite (H m t eq_refl). exact I.
    + cbn [command_io]. destruct (tokenize_int_list pr (pd_value arg) 10) as [[|k [|j l]]|er|p] eqn:V; try exact I.
      * split; [exact I|]. intros r. cbn. destruct (max_of r); exact I.
      * unfold validate_max_history_size. destruct (Z.ltb_spec (pd_value k) 1) as [X|X]; [exact I|]. split.
        -- exists (pd_value arg). split; [apply IsC; reflexivity|]. split; [apply (integers_inj _ _ _ _ V); reflexivity|exact X].
        -- intros r. cbn. destruct (done_of r); exact I.
Qed.

(** ** What a call does to the file *)
Lemma own_moment radix line id m : well m -> own_call radix line id (m_call m) -> own_turn radix line id (m_pre m) (m_post m).
Proof.
  intros (_ & st & R & _ & R') O.
  assert (Same : forall st', represents (m_post m) st' -> st_inputs st' = st_inputs st -> st_cap st' = st_cap st -> same_history (m_pre m) (m_post m)).
  { intros st' Rp Ei Ec. split; [rewrite (rep_inputs _ _ Rp), (rep_inputs _ _ R); exact Ei|]. intros n. pose proof (rp_cap _ _ Rp) as A. pose proof (rp_cap _ _ R) as B. unfold capacity. rewrite A, B, Ec. reflexivity. }
  assert (No : represents (m_post m) st -> own_turn radix line id (m_pre m) (m_post m)).
  { intros Rp. apply ot_nothing; [apply (Same st Rp); reflexivity|]. intros z q k. rewrite (rep_saved _ _ _ _ _ Rp), (rep_saved _ _ _ _ _ R). reflexivity. }
  destruct (m_call m) as [|text| |y v k|y k|y|y| |n]; cbn [own_call] in O; try contradiction; cbn [spec_call fst] in R'.
  - destruct O as (-> & O). destruct (has_input (st_inputs st) id) eqn:Hi; cbn [fst] in R'; [|apply No, R'].
    apply (ot_assign _ _ _ _ _ y v O); [apply (Same _ R'); reflexivity|rewrite (ProofsDb4.rep_ids _ _ R); apply has_input_in, Hi|]. intros z q k. rewrite (rep_saved _ _ _ _ _ R'), (rep_saved _ _ _ _ _ R). cbn [st_vars]. rewrite set_var_some. intuition congruence.
  - destruct O as (-> & O). destruct (st_vars st y) as [[q0 k0]|] eqn:Sy; [|apply No, R']. destruct (has_input (st_inputs st) id) eqn:Hi; cbn [fst] in R'; [|apply No, R'].
    apply (ot_use _ _ _ _ _ y O); [apply (Same _ R'); reflexivity|rewrite (ProofsDb4.rep_ids _ _ R); apply has_input_in, Hi|]. intros z q k. rewrite (rep_saved _ _ _ _ _ R'), (rep_saved _ _ _ _ _ R). cbn [st_vars]. rewrite set_var_some. split.
    + intros [(-> & [= -> ->])|X]; [right|left; exact X]. split; [reflexivity|]. split; [reflexivity|]. exists k0. rewrite (rep_saved _ _ _ _ _ R). exact Sy.
    + intros [X|(-> & -> & k1 & X)]; [right; exact X|left]. rewrite (rep_saved _ _ _ _ _ R) in X. split; congruence.
  - apply No, R'.
  - apply (ot_purge _ _ _ _ _ y O); [apply (Same _ R'); reflexivity|]. intros z q k. rewrite (rep_saved _ _ _ _ _ R'), (rep_saved _ _ _ _ _ R). cbn [st_vars]. rewrite set_var_some. intuition congruence.
  - apply No, R'.
  - pose proof O as (_ & _ & _ & L). destruct (Z.ltb_spec n 1) as [X|_]; [lia|]. cbn [fst] in R'. apply (ot_resize _ _ _ _ _ n O); [exact (rp_cap _ _ R')|rewrite (rep_inputs _ _ R'), (rep_inputs _ _ R); reflexivity|].
    intros z q k. rewrite (rep_saved _ _ _ _ _ R'), (rep_saved _ _ _ _ _ R), (ProofsDb4.rep_ids _ _ R'). rewrite shrink_saved. reflexivity.
Qed.
Lemma record_moment radix line id m : well m -> m_call m = AddInput line -> m_reply m = RId id -> own_turn radix line id (m_pre m) (m_post m).
Proof.
  intros (_ & st & R & E & R') C Er. rewrite C in E, R'. cbn [spec_call fst snd] in E, R'. rewrite Er in E. injection E as ->. apply ot_record. exists (st_cap st).
  split; [exact (rp_cap_pos _ _ R)|]. split; [exact (rp_cap _ _ R)|]. split; [exact (rp_cap _ _ R')|]. split; [rewrite (rep_inputs _ _ R'), (rep_inputs _ _ R); reflexivity|].
  intros z q k. rewrite (rep_saved _ _ _ _ _ R'), (rep_saved _ _ _ _ _ R), (ProofsDb4.rep_ids _ _ R'). rewrite shrink_saved. reflexivity.
Qed.

Section File.
  Context (pr : profile) (ord : nat -> nat -> list str -> list str) (tm : nat -> terminal).
  Context (Ho : forall i n, iterates (ord i n)).
  Notation rrun := (room_run pr ord the_executor tm).
  Notation rstep := (room_step pr ord the_executor tm).
  Notation at_ := (placed pr ord the_executor tm).
  Lemma placed_goes i first rest : forall l w, at_ i l (first ++ Goes i :: rest) w -> exists m, In m l /\ m_pre m = r_file (rrun first w) /\ m_post m = r_file (rrun (first ++ [Goes i]) w).
  Proof.
    induction first as [|tn first IH]; intros l w H; cbn [app room_run].
    - inversion H as [|? ? ? ? N _|m l0 rest0 w0 u k S1 S2 S3 P]; subst; [destruct (N eq_refl)|]. exists m. split; [left; reflexivity|]. auto.
    - inversion H as [|? ? ? ? N P|m l0 rest0 w0 u k S1 S2 S3 P]; subst; [apply IH, P|]. destruct (IH _ _ P) as (m1 & I & X). exists m1. split; [right; exact I|exact X].
  Qed.
  Lemma own_turns w i mods between u u' e out line : calm_room w -> Forall proper_turn between -> Forall calm_turn between ->
    processes pr ord the_executor tm w i mods between u u' e out -> shown (u_inputs u) = Ok line ->
    exists id, forall first rest, line_turns i mods between = first ++ Goes i :: rest ->
      own_turn (a_radix (u_args u)) line id (r_file (rrun first w)) (r_file (rrun (first ++ [Goes i]) w)).
  Proof.
    intros Cw Pp Cc Pr L.
    destruct (line_trace pr ord the_executor tm Ho i mods between w u u' e out (fun _ id l _ _ _ => Forall (fun m => own_turn (a_radix (u_args u)) line id (m_pre m) (m_post m)) l) Cw Pp Cc Pr) as (line0 & id & l & r & _ & _ & Pl & F & _).
    { intros line0 m0 id L0 W0 C0 R0 A V. assert (line0 = line) by congruence. subst line0.
      eapply wp_weaken; [apply wp_and; [apply (calls_wp _ _ (own_body pr _ (u_args u) (u_vars u) line id (Ho i (u_count u))) [m0])|apply (wp_well _ [m0])]|].
      cbn. intros l' _ ((l1 & -> & F) & l2 & E & W). injection E as <-. constructor; [apply record_moment; assumption|].
      clear - F W. induction F as [|m l O F IH]; [constructor|]. inversion W; subst. constructor; [apply own_moment; assumption|apply IH; assumption]. }
    exists id. intros first rest Et. rewrite Et in Pl. destruct (placed_goes _ _ _ _ _ Pl) as (m & I & <- & <-). eapply Forall_forall in F; [exact F|exact I].
  Qed.
End File.

(** Starting and the keys leave the file alone. *)
Lemma kept_file pr ord x tm tn w : (forall i n, iterates (ord i n)) -> calm_room w -> program_file (r_file w) -> (forall i, tn <> Goes i) ->
  r_file (fst (room_step pr ord x tm tn w)) = r_file w.
Proof.
  intros Ho Cw P Ng. pose proof (proj1 Cw) as S. destruct tn as [i a wanted|i ev|i].
  - cbn [room_step]. destruct (r_seat w i) eqn:Sk; [reflexivity|]. destruct wanted as [faults|].
    + destruct (sd_open faults (r_file w)) as [file o] eqn:O. pose proof (reopen _ _ _ _ P O) as ->. destruct o as [sd|e|p]; [destruct (interactive_start pr (tm i) a (Some sd)) as [[u out] st]|..]; reflexivity.
    + destruct (interactive_start pr (tm i) a None) as [[u out] st]. reflexivity.
  - cbn [room_step]. destruct (r_seat w i) as [[u e|u t]|] eqn:Sk; [|reflexivity..]. destruct e; try reflexivity.
    destruct (enter ev) eqn:En; [destruct (u_db u) as [sd|] eqn:Ed|].
    + destruct (begin_line _ _ _ _ _) as [s0 out]. reflexivity.
    + pose proof (ui_step_none pr (ord i) x (tm i) ev (with_file (r_file w) u) (Ho i)) as Nn. rewrite with_file_db in Nn. destruct (proj2 S i _ Sk) as (_ & G). specialize (Nn (G eq_refl) Ed).
      destruct (ui_step _ _ _ _ _ _) as [[u' out] st]. cbn [fst r_file] in *. unfold file_of. rewrite Nn. reflexivity.
    + unfold ui_step. pose proof (handle_event_file ev (u_line (with_file (r_file w) u)) (u_inputs (with_file (r_file w) u)) (u_db (with_file (r_file w) u))) as F.
      destruct (handle_event ev _ _ _) as [[[l' h'] db'] act] eqn:He. cbv zeta.
      assert (Z : forall l0 h0 c0 a0, file_of (r_file w) (mkUi a0 (u_vars (with_file (r_file w) u)) db' h0 l0 c0) = r_file w).
      { intros. unfold file_of. cbn [u_db]. unfold same_file in F. cbn in F. destruct (u_db u), db'; try contradiction; [exact F|reflexivity]. }
      destruct act; cbn [fst r_file]; try apply Z.
      * destruct (display _ _ _ _ _) as [[l2 o2]|e2|p2]; cbn [fst r_file]; apply Z.
      * destruct (enter_only _ _ _ _ _ _ _ He) as ((mods & ->) & _). discriminate En.
  - destruct (Ng i eq_refl).
Qed.
