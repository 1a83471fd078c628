(** ProofsMemory2.v -- where what a program remembers comes from (C106). *)
From Verif Require Import Base Position Num TokenTypes Errors Token Operations SavedData Variables InputHistory
  SyntaxTree Commands Calculate Editor Sessions Main Io Together Interleave SpecLex SpecGrammar SpecEval SpecHistory SpecSyntax SpecEditor SpecCalc SpecSession SpecCommands SpecData SpecMain SpecTogether SpecInterleave SpecMemory.
From Verif Require Import ProofsNum ProofsLex ProofsLex2 ProofsParse ProofsParse2 ProofsEval ProofsDb ProofsDb2 ProofsEditor4 ProofsCalc ProofsCalc2 ProofsCalc3 ProofsCalc4 ProofsCalc5 ProofsCalc6 ProofsCalc7 ProofsCalc8 ProofsCalc9 ProofsCalc10 ProofsCommands ProofsCommands2 ProofsData ProofsMain ProofsTogether ProofsInterleave ProofsInterleave2 ProofsInterleave3 ProofsInterleave6 ProofsInterleave9 ProofsInterleave12 ProofsCalls ProofsIo ProofsMemory.
From Coq Require Import String Permutation Lia.
Local Open Scope nat_scope.
Local Open Scope list_scope.

Lemma start_vars pr tm a db : u_vars (fst (fst (interactive_start pr tm a db))) = vs_new.
Proof. unfold interactive_start. rewrite start_line_vars. reflexivity. Qed.
Lemma purge_none names : forall vars y v, vs_get (fst (fst (purge_loop names vars None))) y = Some v -> vs_get vars y = Some v.
Proof.
  induction names as [|z names IH]; intros vars y v; [cbn; auto|]. cbn [purge_loop vs_purge]. intros H. apply IH in H. rewrite vs_get_remove in H. destruct (str_eqb y z); [discriminate H|exact H].
Qed.

(** Without a database a line brings in nothing but what it assigns. *)
Lemma line_offline pr ord input se se' r y v : valid_settings (s_args se) -> env_ok (s_env se) -> iterates ord -> e_db (s_env se) = None ->
  calculate pr ord the_executor input se = (se', r) -> remembered (s_env se') y v -> remembered (s_env se) y v \/ assigns (a_radix (s_args se)) input y.
Proof.
  intros Ha Hs Ho Nd C R. destruct (recording_ok se Hs) as (Rok & Rv & Rn & _). rewrite (remembered_recording se y v Rv).
  assert (Nr : e_db (after_recording se) = None) by tauto.
  destruct (calculate_cases _ _ _ _ _ _ _ C) as [(_ & B & _)|(id & B & Hid & _)]; [left; congruence|].
  destruct (tokenize input (a_radix (s_args se))) as [[ts|name arg]|e|p] eqn:T.
  - destruct (body_expression _ _ _ _ _ _ _ _ _ _ _ Ha Rok ltac:(intros N; apply Hid; tauto) T B) as (_ & _ & _ & _ & E5).
    assert (Val : forall s, e_db s = None -> var_value s y v -> remembered s y v).
    { intros s N (m & Em & [G|(G & sd & Es & _)]); [exists m; auto|congruence]. }
    assert (Mem : var_value (s_env se') y v) by (destruct R as (m & Em & G); exists m; auto).
    destruct E5 as [((_ & _ & S & _ & _) & _)|(z & n & w & As & _ & _ & _ & (_ & _ & K & _ & _) & _)].
    + left. apply Val; [exact Nr|]. apply S, Mem.
    + destruct (str_eqb y z) eqn:E; [apply str_eqb_spec in E; subst z; right; exists ts, n; split; [exact T|exact As]|].
      left. apply Val; [exact Nr|]. apply K; [|exact Mem]. intros ->. rewrite (proj2 (str_eqb_spec z z) eq_refl) in E. discriminate E.
  - left. destruct (body_command _ _ _ _ _ _ _ _ _ _ _ _ Ha Rok Ho T B) as (_ & _ & _ & _ & X & _ & _ & Kp & _).
    destruct (resolve_in (pd_value name)) as [c|] eqn:Rc.
    2:{ apply X; [|exact R]. intros c Rc'. unfold resolves in Rc'. fold (resolve_in (pd_value name)) in Rc'. congruence. }
    assert (Ro : forall c', resolves the_executor name c' -> c' = c) by (intros c' Rc'; unfold resolves in Rc'; fold (resolve_in (pd_value name)) in Rc'; congruence).
    destruct (keeps_state c) eqn:Ks; [rewrite Kp in R; [exact R|]; intros c' Rc'; rewrite (Ro c' Rc'); exact Ks|].
    assert (Oth : c <> CReloadVar -> c <> CPurgeVar -> remembered (after_recording se) y v).
    { intros N1 N2. apply X; [|exact R]. intros c' Rc' ([->| ->] & _); apply Ro in Rc'; congruence. }
    destruct c; try (apply Oth; discriminate); clear Oth X Kp.
    + unfold calculate_body in B. rewrite T in B. unfold execute_command in B. fold (resolve_in (pd_value name)) in B. rewrite Rc in B. cbn [run_command] in B.
      unfold exec_reloadvar in B. rewrite Nr in B. destruct (tokenize_variable_list _); apply pair_equal_spec in B as [B _]; apply pair_equal_spec in B as [_ B]; congruence.
    + unfold calculate_body in B. rewrite T in B. unfold execute_command in B. fold (resolve_in (pd_value name)) in B. rewrite Rc in B. cbn [run_command] in B.
      unfold exec_purgevar in B. rewrite Nr in B. destruct (tokenize_variable_list _) as [l|e|p]; [|apply pair_equal_spec in B as [B _]; apply pair_equal_spec in B as [_ B]; congruence..].
      destruct (e_vars (after_recording se)) as [m|] eqn:Em; [|apply pair_equal_spec in B as [B _]; apply pair_equal_spec in B as [_ B]; congruence].
      pose proof (purge_none (ord (name_set l)) m y v) as Pn. destruct (purge_loop (ord (name_set l)) m None) as [[m' db'] r0]. cbn [fst] in Pn.
      assert (Ev : e_vars (s_env se') = Some m').
      { destruct r0 as [u|e|p]; [destruct (touch_all [] id _) as [s2 r2] eqn:Tt; destruct (touch_all_settled _ _ _ _ _ Tt) as ((Sv & _) & _); cbn [e_vars] in Sv|..];
          apply pair_equal_spec in B as [B _]; apply pair_equal_spec in B as [_ <-]; [exact Sv|reflexivity..]. }
      destruct R as (m0 & E0 & G). exists m. split; [exact Em|]. apply Pn. congruence.
  - left. destruct (body_unreadable _ _ _ _ _ _ _ _ _ _ ltac:(rewrite T; discriminate) B) as (_ & Eq & _). rewrite <- Eq. exact R.
  - left. destruct (body_unreadable _ _ _ _ _ _ _ _ _ _ ltac:(rewrite T; discriminate) B) as (_ & Eq & _). rewrite <- Eq. exact R.
Qed.

Section Origin.
  Context (Src : str -> Q -> Prop).
  (** However the computation goes on, if values that are read have a source. *)
  Fixpoint fed {A} (Q : A -> Prop) (t : io A) : Prop :=
    match t with Finished a => Q a | Ask c k => forall r, (forall y v, c = GetVariable y -> r = RValue (Some v) -> Src y v) -> fed Q (k r) end.
  Lemma fed_bind {A B} (P : A -> Prop) (Q : B -> Prop) t f : fed P t -> (forall a, P a -> fed Q (f a)) -> fed Q (io_bind t f).
  Proof. induction t as [a|c k IH]; cbn; intros H F; [auto|]. intros r Hr. apply IH; [apply H, Hr|exact F]. Qed.
  Lemma fed_true {A} (t : io A) : fed (fun _ => True) t.
  Proof. induction t as [a|c k IH]; cbn; auto. Qed.
  Definition known_from (vars : vstore) : Prop := forall y v, vs_get vars y = Some v -> Src y v.
  Definition origin {A} (vr : vstore * A) : Prop := known_from (fst vr).
  Lemma from_insert vars z q : Src z q -> known_from vars -> known_from (vs_insert vars z q).
  Proof. intros N H y v. rewrite vs_get_insert. destruct (str_eqb y z) eqn:E; [|apply H]. apply str_eqb_spec in E as ->. intros [= <-]. exact N. Qed.
  Lemma from_remove vars z : known_from vars -> known_from (vs_remove vars z).
  Proof. intros H y v. rewrite vs_get_remove. destruct (str_eqb y z); [discriminate|apply H]. Qed.
  Lemma value_reply r v : value_of r = Ok (Some v) -> r = RValue (Some v).
  Proof. destruct r; cbn; try discriminate. intros [= ->]. reflexivity. Qed.
  Lemma then_from {A B} (t : io (vstore * outcome failure A)) (f : A -> vstore -> io (vstore * outcome failure B)) :
    fed origin t -> (forall a vars, known_from vars -> fed origin (f a vars)) -> fed origin (io_then t f).
  Proof.
    intros T F. unfold io_then. eapply fed_bind; [exact T|]. intros [vars o] K. cbn [fst snd]. destruct o; [apply F; exact K|exact K..].
  Qed.
  Lemma variable_from z p vars : known_from vars -> fed origin (variable_io z p vars).
  Proof.
    intros H. unfold variable_io, lookup_io. destruct (vs_get vars z) as [q|] eqn:G; [exact H|]. cbn [reload_io io_bind fed]. intros r Hr. unfold origin. cbn [fst].
    destruct (value_of r) as [[q|]|e|p0] eqn:V; try exact H. apply value_reply in V. apply from_insert; [apply Hr; auto|exact H].
  Qed.
  Lemma exec_from pr a n : forall vars, known_from vars -> fed origin (exec_io pr a n vars).
  Proof.
    induction n as [q p|z p|o p n IH|o p n1 n2 IH1 IH2|f p ns q IH|p q n IH] using node_in; intros vars H.
    - exact H.
    - apply variable_from, H.
    - cbn [exec_io]. apply then_from; [apply IH, H|]. intros q vars1 H1. exact H1.
    - cbn [exec_io]. apply then_from; [apply IH1, H|]. intros q vars1 H1. apply then_from; [apply IH2, H1|]. intros q2 vars2 H2. exact H2.
    - rewrite fun_io. apply then_from; [|intros qs vars1 H1; exact H1]. revert vars H. induction ns as [|m ns IHl]; intros vars H; [exact H|]. cbn [list_io].
      apply then_from; [apply IH; [left; reflexivity|exact H]|]. intros q1 vars1 H1. apply then_from; [apply IHl; [intros m0 I0; apply IH; right; exact I0|exact H1]|]. intros qs vars2 H2. exact H2.
    - cbn [exec_io]. apply IH, H.
  Qed.
  Lemma reload_from names : forall out touched vars, known_from vars -> fed origin (reload_loop_io names out touched vars).
  Proof.
    induction names as [|z names IH]; intros out touched vars H; [exact H|]. cbn [reload_loop_io reload_io io_bind fed]. cbv zeta. intros r Hr. cbn [io_bind fst snd].
    destruct (value_of r) as [[q|]|e|p] eqn:V; [|apply IH; assumption|exact H..]. apply value_reply in V. apply IH. apply from_insert; [apply Hr; auto|exact H].
  Qed.
  Lemma purge_from names : forall vars, known_from vars -> fed origin (purge_loop_io names vars).
  Proof.
    induction names as [|z names IH]; intros vars H; [exact H|]. cbn [purge_loop_io purge_io io_bind fed]. intros r _. cbn [io_bind fst snd].
    pose proof (from_remove vars z H) as H'. destruct (done_of r); [apply IH; assumption|exact H'..].
  Qed.
  Lemma body_from pr ord a vars line id : (forall y v, assigns (a_radix a) line y -> Src y v) -> known_from vars ->
    fed (fun avr => known_from (snd (fst avr))) (body_io pr ord the_executor line id a vars).
  Proof.
    intros Na H. unfold body_io. destruct (tokenize line (a_radix a)) as [[ts|name arg]|e|p] eqn:T; [| |exact H..].
    - eapply fed_bind; [apply fed_true|]. intros r _. destruct r as [r|e|p]; [|exact H..]. destruct ts as [|t0 ts']; [exact H|].
      destruct (syntax_tree_new _) as [t|e|p] eqn:St; [|exact H..]. eapply fed_bind with (P := origin); [|intros vr K; exact K].
      unfold tree_io. apply then_from; [apply exec_from, H|]. intros q vars1 H1. destruct (st_var t) as [z|] eqn:Ez; [|exact H1].
      cbn [update_io io_bind fed]. intros r0 _. unfold origin. cbn [fst]. apply from_insert; [|exact H1].
      apply parse_iff in St. inversion St as [ts0 n D|z0 p q0 ts0 n D]; subst; cbn [st_var] in Ez; [discriminate Ez|].
      injection Ez as <-. cbn [pd_value]. apply Na. exists (tk (TVariable z0) p :: tk TAssign q0 :: ts0), n. split; [exact T|]. exists p, q0, ts0. split; [reflexivity|].
      match goal with D : derives 5 _ _ |- _ => exact D end.
    - eapply fed_bind with (P := fun avr : command_answer => known_from (snd (fst avr))).
      2:{ intros [[a' vars'] r] K. cbn [fst snd] in K. destruct r as [[m t]|e|p]; [|exact K..]. eapply fed_bind; [apply fed_true|]. intros r _. exact K. }
      unfold execute_io. fold (resolve_in (pd_value name)). destruct (resolve_in (pd_value name)) as [c|]; [|exact H].
      destruct c; cbn [command_io];
        try (match goal with |- context[run_command ?a1 ?a2 ?a3 ?a4 ?a5 ?a6 ?a7] => destruct (run_command a1 a2 a3 a4 a5 a6 a7) as [[? ?] ?] end; exact H).
      + destruct (tokenize_variable_list _) as [l|er|p]; [|exact H..]. eapply fed_bind with (P := origin); [|intros vr K; exact K]. apply reload_from, H.
      + destruct (tokenize_variable_list _) as [l|er|p]; [|exact H..]. eapply fed_bind with (P := origin); [|intros vr K; exact K]. apply purge_from, H.
      + destruct (tokenize_int_list pr (pd_value arg) 10) as [[|k [|j l]]|er|p]; try exact H; [intros r _; exact H|]. destruct (validate_max_history_size _); [exact H|intros r _; exact H].
  Qed.
  Definition answer_from (ans : line_answer) : Prop := known_from (snd (fst ans)).
  Lemma line_from pr ord a h vars line : (forall y v, assigns (a_radix a) line y -> Src y v) -> known_from vars -> fed answer_from (line_io pr ord the_executor line a h vars).
  Proof.
    intros N H. unfold line_io. destruct (current_line h) as [text|e|p]; [|exact H..]. cbv zeta. intros r _. destruct (id_of r) as [id|e|p]; [|exact H..].
    eapply fed_bind; [apply body_from; assumption|]. intros avr K. exact K.
  Qed.

  (** ** In a room *)
  Definition seat_from (s : seat) : Prop := match s with Resting u _ => known_from (u_vars u) | Working u t => known_from (u_vars u) /\ fed answer_from t end.
  Lemma answer_line_from pr tm u ans : answer_from ans -> seat_from (fst (answer_line pr tm u ans)).
  Proof.
    destruct ans as [[[a' h'] vars'] r]. unfold answer_from. cbn [fst snd]. intros K. unfold answer_line. destruct (render r) as [text|e|p]; [|exact K..].
    set (u' := mkUi a' vars' (u_db u) h' (u_line u) (S (u_count u))). pose proof (start_line_vars pr tm u') as V. destruct (start_line pr tm u') as [[u'' out] st]. cbn [fst seat_from] in *. rewrite V. exact K.
  Qed.
  Lemma go_on_from pr tm u t : known_from (u_vars u) -> fed answer_from t -> seat_from (fst (go_on pr tm u t)).
  Proof. intros H E. destruct t as [ans|c k]; cbn [go_on]; [apply answer_line_from, E|]. cbn [fst seat_from]. auto. Qed.
  Lemma begin_from pr ord tm u : known_from (u_vars u) -> (forall line y v, shown (u_inputs u) = Ok line -> assigns (a_radix (u_args u)) line y -> Src y v) ->
    seat_from (fst (begin_line pr ord the_executor tm u)).
  Proof.
    intros H N. unfold begin_line. destruct (display _ _ _ _ _) as [[l1 out1]|e|p]; [|exact H..]. unfold shown in N. destruct (current_line (u_inputs u)) as [line|e|p]; [|exact H..].
    pose proof (go_on_from pr tm u _ H (line_from pr (ord (u_count u)) (u_args u) (u_inputs u) (u_vars u) line (fun y v => N line y v eq_refl) H)) as K.
    destruct (go_on _ _ _ _) as [s out]. exact K.
  Qed.
  Lemma step_from pr ord tm ev u : (forall n, iterates (ord n)) -> ui_good u -> known_from (u_vars u) -> (Interleave.enter ev = true -> u_db u = None) ->
    (Interleave.enter ev = true -> forall line y v, shown (u_inputs u) = Ok line -> assigns (a_radix (u_args u)) line y -> Src y v) ->
    known_from (u_vars (fst (fst (ui_step pr ord the_executor tm ev u)))).
  Proof.
    intros Ho G H Nd N. unfold ui_step. destruct (Interleave.enter ev) eqn:En.
    - destruct ev as [k mods| | |]; try discriminate En. destruct k; try discriminate En. cbn [handle_event]. specialize (Nd eq_refl).
      replace (mkUi (u_args u) (u_vars u) (u_db u) (u_inputs u) (u_line u) (u_count u)) with u by (destruct u; reflexivity).
      unfold finish_line. cbv zeta. destruct (display _ _ _ _ _) as [[l1 out1]|e|p]; [|exact H|exact H].
      specialize (N eq_refl). unfold shown in N. destruct (current_line (u_inputs u)) as [input|e|p]; [|exact H|exact H].
      set (se := mkSession (u_args u) (Some (u_inputs u)) (mkEnv (Some (u_vars u)) (u_db u))).
      destruct (calculate pr (ord (u_count u)) the_executor input se) as [se' r] eqn:C. destruct G as (A & B & R).
      assert (F : known_from (match e_vars (s_env se') with Some v => v | None => u_vars u end)).
      { destruct (e_vars (s_env se')) as [m|] eqn:Em; [|exact H]. intros y v Gm.
        destruct (line_offline pr _ input se se' r y v A B (Ho _) Nd C ltac:(exists m; auto)) as [(m0 & E0 & G0)|As]; [|exact (N input y v eq_refl As)].
        cbn in E0. injection E0 as <-. apply H, G0. }
      destruct (render r) as [text|e|p]; [|exact F|exact F].
      match goal with |- context [start_line pr tm ?u0] => pose proof (start_line_vars pr tm u0) as V; destruct (start_line pr tm u0) as [[u'' out3] st] end.
      cbn [fst] in *. rewrite V. exact F.
    - destruct (handle_event ev (u_line u) (u_inputs u) (u_db u)) as [[[l' h'] db'] act] eqn:E. destruct act; try exact H.
      + destruct (display _ _ _ _ _) as [[l'' out]|e|p]; exact H.
      + exfalso. apply enter_only in E. destruct E as ((mods & ->) & _). discriminate En.
  Qed.
  Lemma turn_from pr ord tm tn w i : (forall j n, iterates (ord j n)) -> sound_room w -> (forall s, r_seat w i = Some s -> seat_from s) ->
    (forall y v, on_disk (r_file w) y v -> Src y v) ->
    (forall mods u line y v, tn = Receives i (EvKey KEnter mods) -> r_seat w i = Some (Resting u Running) -> shown (u_inputs u) = Ok line -> assigns (a_radix (u_args u)) line y -> Src y v) ->
    forall s, r_seat (fst (room_step pr ord the_executor tm tn w)) i = Some s -> seat_from s.
  Proof.
    intros Ho Sd K Fs N. assert (Oth : forall file j s0, j <> i -> forall s, r_seat (mkRoom file (seated (r_seat w) j s0)) i = Some s -> seat_from s) by (intros file j s0 D s; cbn; rewrite seated_other by auto; apply K).
    assert (New : forall file s0, seat_from s0 -> forall s, r_seat (mkRoom file (seated (r_seat w) i s0)) i = Some s -> seat_from s) by (intros file s0 K0 s; cbn; rewrite seated_same; intros [= <-]; exact K0).
    assert (Z : forall pr tm a db e, seat_from (Resting (fst (fst (interactive_start pr tm a db))) e)) by (intros; cbn [seat_from]; rewrite start_vars; intros y v E; discriminate E).
    destruct tn as [j a wanted|j ev|j]; cbn [room_step].
    - destruct (r_seat w j); [exact K|]. destruct wanted as [faults|].
      + destruct (sd_open faults (r_file w)) as [file [sd|e|p]]; [|exact K..]. pose proof (fun e => Z pr (tm j) a (Some sd) e) as Z'. destruct (interactive_start pr (tm j) a (Some sd)) as [[u' out] st].
        destruct (Nat.eq_dec j i) as [->|D]; [apply New, Z'|apply Oth, D].
      + pose proof (fun e => Z pr (tm j) a None e) as Z'. destruct (interactive_start pr (tm j) a None) as [[u' out] st]. destruct (Nat.eq_dec j i) as [->|D]; [apply New, Z'|apply Oth, D].
    - destruct (Nat.eq_dec j i) as [->|D].
      2:{ destruct (r_seat w j) as [[u' e|u' t']|]; [|exact K..]. destruct e; try exact K.
          destruct (enter ev); [destruct (u_db u')|]; [destruct (begin_line _ _ _ _ _) as [s2 out]|destruct (ui_step _ _ _ _ _ _) as [[u2 out] st]..]; apply Oth, D. }
      destruct (r_seat w i) as [[u e|u t]|] eqn:Sk; [|cbn [fst]; intros s E; rewrite Sk in E; exact (K _ E)..]. destruct e; try (cbn [fst]; intros s E; rewrite Sk in E; exact (K _ E)).
      pose proof (K _ eq_refl) as Ku. cbn [seat_from] in Ku.
      assert (G : ui_good (with_file (r_file w) u)) by (destruct Sd as (_ & Sd); apply (Sd i _ Sk); reflexivity).
      assert (N' : enter ev = true -> forall line y v, shown (u_inputs (with_file (r_file w) u)) = Ok line -> assigns (a_radix (u_args (with_file (r_file w) u))) line y -> Src y v).
      { intros En. destruct ev as [k mods| | |]; try discriminate En. destruct k; try discriminate En. intros line y v. exact (N mods u line y v eq_refl eq_refl). }
      assert (Ui : (enter ev = true -> u_db (with_file (r_file w) u) = None) -> forall s, r_seat (fst (let '(u', out, st) := ui_step pr (ord i) the_executor (tm i) ev (with_file (r_file w) u) in
              (mkRoom (file_of (r_file w) u') (seated (r_seat w) i (Resting u' (ending_of st))), out))) i = Some s -> seat_from s).
      { intros Nd. pose proof (step_from pr (ord i) (tm i) ev (with_file (r_file w) u) (Ho i) G Ku Nd N') as K'. destruct (ui_step _ _ _ _ _ _) as [[u' out] st]. apply New, K'. }
      destruct (enter ev) eqn:En; [|apply Ui; discriminate]. destruct (u_db u) as [sd|] eqn:Ed; [|apply Ui; intros _; cbn; rewrite Ed; reflexivity].
      pose proof (begin_from pr (ord i) (tm i) (with_file (r_file w) u) Ku (N' eq_refl)) as B. destruct (begin_line _ _ _ _ _) as [s2 out]. apply New, B.
    - destruct (Nat.eq_dec j i) as [->|D].
      2:{ destruct (r_seat w j) as [[u' e|u' t']|]; [exact K| |exact K]. destruct t' as [ans|c k]; [exact K|]. destruct (u_db u'); [|exact K].
          destruct (perform _ _) as [sd' r]. destruct (go_on _ _ _ _) as [s' out]. apply Oth, D. }
      destruct (r_seat w i) as [[u e|u t]|] eqn:Sk; [cbn [fst]; intros s E; rewrite Sk in E; exact (K _ E)| |cbn [fst]; intros s E; rewrite Sk in E; exact (K _ E)].
      destruct t as [ans|c k]; [cbn [fst]; intros s E; rewrite Sk in E; exact (K _ E)|]. destruct (u_db u) as [sd|] eqn:Ed; [|cbn [fst]; intros s E; rewrite Sk in E; exact (K _ E)].
      destruct (K _ eq_refl) as (K1 & K2). destruct (perform _ _) as [sd' r] eqn:P.
      assert (Hr : forall y v, c = GetVariable y -> r = RValue (Some v) -> Src y v).
      { intros y v -> ->. cbn [perform] in P. cbv zeta in P. destruct (get_variable y _) as [sd1 o] eqn:Gv. cbn [fst snd] in P. apply pair_equal_spec in P as [_ P].
        destruct Sd as (_ & Sd). destruct (Sd i _ Sk) as (_ & Pf & _). apply Fs.
        pose proof (get_variable_spec y (mkSD (r_file w) (sd_pos sd) (sd_faults sd)) sd1 o (file_rows _ Pf) Gv) as Gs. cbn [sd_db] in Gs. destruct Gs as (_ & [(v0 & -> & Od & _)|[(-> & _)|(e & ->)]]); cbn in P; try discriminate P. injection P as ->. exact Od. }
      pose proof (go_on_from pr (tm i) (with_db u (Some sd')) (k r) K1 (K2 r Hr)) as G. destruct (go_on _ _ _ _) as [s' out]. apply New, G.
  Qed.
  Lemma run_from pr ord tm i turns : (forall j n, iterates (ord j n)) -> forall w, Forall proper_turn turns -> sound_room w -> (forall s, r_seat w i = Some s -> seat_from s) ->
    (forall f y v, In f (room_files pr ord the_executor tm turns w) -> on_disk f y v -> Src y v) ->
    (forall y v, submits_assignment pr ord the_executor tm i y turns w -> Src y v) ->
    forall s, r_seat (room_run pr ord the_executor tm turns w) i = Some s -> seat_from s.
  Proof.
    intros Ho. induction turns as [|tn turns IH]; intros w P Sd K Fs As; [exact K|]. apply Forall_cons_iff in P as [P1 P2]. cbn [room_run].
    apply (IH _ P2 (sound_turn pr ord the_executor tm tn w Ho P1 Sd)).
    - apply (turn_from pr ord tm tn w i Ho Sd K); [intros y v; apply Fs; left; reflexivity|]. intros mods u line y v -> Sk L A. apply As. exists [], mods, turns, u, line. auto.
    - intros f y v I. apply Fs. right. exact I.
    - intros y v (before & mods & after & u & line & -> & Sk & L & A). apply As. exists (tn :: before), mods, after, u, line. auto.
  Qed.
End Origin.
