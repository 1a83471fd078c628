(** ProofsMemory.v -- what a program remembers stays (C106). *)
From Verif Require Import Base Position Num TokenTypes Errors Token Operations SavedData Variables InputHistory
  SyntaxTree Commands Calculate Editor Sessions Main Io Together Interleave SpecLex SpecGrammar SpecEval SpecHistory SpecSyntax SpecEditor SpecCalc SpecSession SpecCommands SpecData SpecMain SpecTogether SpecInterleave SpecMemory.
From Verif Require Import ProofsNum ProofsLex ProofsLex2 ProofsParse ProofsParse2 ProofsEval ProofsDb ProofsDb2 ProofsEditor4 ProofsCalc ProofsCalc2 ProofsCalc3 ProofsCalc4 ProofsCalc5 ProofsCalc6 ProofsCalc7 ProofsCalc8 ProofsCalc9 ProofsCalc10 ProofsCommands ProofsCommands2 ProofsData ProofsMain ProofsTogether ProofsInterleave ProofsInterleave2 ProofsInterleave3 ProofsInterleave6 ProofsInterleave9 ProofsInterleave12 ProofsCalls ProofsIo.
From Coq Require Import String Permutation Lia.
Local Open Scope nat_scope.
Local Open Scope list_scope.

(** Whatever the replies, the computation ends like this. *)
Fixpoint ends {A} (Q : A -> Prop) (t : io A) : Prop :=
  match t with Finished a => Q a | Ask c k => forall r, ends Q (k r) end.
Lemma ends_bind {A B} (P : A -> Prop) (Q : B -> Prop) t f : ends P t -> (forall a, P a -> ends Q (f a)) -> ends Q (io_bind t f).
Proof. induction t as [a|c k IH]; cbn; intros H F; [auto|]. intros r. apply IH; [apply H|exact F]. Qed.
Lemma ends_true {A} (t : io A) : ends (fun _ => True) t.
Proof. induction t as [a|c k IH]; cbn; auto. Qed.

Section Keep.
  Context (y : str) (v : Q).
  Definition has (vars : vstore) : Prop := vs_get vars y = Some v.
  Definition keeps {A} (vr : vstore * A) : Prop := has (fst vr).
  Lemma has_insert vars z q : z <> y -> has vars -> has (vs_insert vars z q).
  Proof. unfold has. intros N H. rewrite vs_get_insert. destruct (str_eqb y z) eqn:E; [|exact H]. apply str_eqb_spec in E. congruence. Qed.
  Lemma has_remove vars z : z <> y -> has vars -> has (vs_remove vars z).
  Proof. unfold has. intros N H. rewrite vs_get_remove. destruct (str_eqb y z) eqn:E; [|exact H]. apply str_eqb_spec in E. congruence. Qed.
  Lemma then_keeps {A B} (t : io (vstore * outcome failure A)) (f : A -> vstore -> io (vstore * outcome failure B)) :
    ends keeps t -> (forall a vars, has vars -> ends keeps (f a vars)) -> ends keeps (io_then t f).
  Proof.
    intros T F. unfold io_then. eapply ends_bind; [exact T|]. intros [vars o] K. cbn [fst snd]. destruct o; [apply F; exact K|exact K..].
  Qed.
  Lemma variable_keeps z p vars : has vars -> ends keeps (variable_io z p vars).
  Proof.
    intros H. unfold variable_io, lookup_io. destruct (vs_get vars z) as [q|] eqn:G; [exact H|]. cbn [reload_io io_bind ends]. intros r. cbn [keeps fst]. unfold keeps. cbn [fst].
    assert (N : z <> y) by (intros ->; unfold has in H; congruence). destruct (value_of r) as [[q|]|e|p0]; try exact H. apply has_insert; assumption.
  Qed.
  Lemma exec_keeps pr a n : forall vars, has vars -> ends keeps (exec_io pr a n vars).
  Proof.
    induction n as [q p|z p|o p n IH|o p n1 n2 IH1 IH2|f p ns q IH|p q n IH] using node_in; intros vars H.
    - exact H.
    - apply variable_keeps, H.
    - cbn [exec_io]. apply then_keeps; [apply IH, H|]. intros q vars1 H1. exact H1.
    - cbn [exec_io]. apply then_keeps; [apply IH1, H|]. intros q vars1 H1. apply then_keeps; [apply IH2, H1|]. intros q2 vars2 H2. exact H2.
    - rewrite fun_io. apply then_keeps; [|intros qs vars1 H1; exact H1]. revert vars H. induction ns as [|m ns IHl]; intros vars H; [exact H|]. cbn [list_io].
      apply then_keeps; [apply IH; [left; reflexivity|exact H]|]. intros q1 vars1 H1. apply then_keeps; [apply IHl; [intros m0 I0; apply IH; right; exact I0|exact H1]|]. intros qs vars2 H2. exact H2.
    - cbn [exec_io]. apply IH, H.
  Qed.
  Lemma reload_keeps names : forall out touched vars, ~ In y names -> has vars -> ends keeps (reload_loop_io names out touched vars).
  Proof.
    induction names as [|z names IH]; intros out touched vars N H; [exact H|]. cbn [reload_loop_io reload_io io_bind ends]. cbv zeta. intros r. cbn [io_bind fst snd].
    assert (Nz : z <> y) by (intros ->; apply N; left; reflexivity). assert (Nr : ~ In y names) by (intros I; apply N; right; exact I).
    destruct (value_of r) as [[q|]|e|p]; [|apply IH; assumption|exact H..]. apply IH; [exact Nr|]. apply has_insert; assumption.
  Qed.
  Lemma purge_keeps names : forall vars, ~ In y names -> has vars -> ends keeps (purge_loop_io names vars).
  Proof.
    induction names as [|z names IH]; intros vars N H; [exact H|]. cbn [purge_loop_io purge_io io_bind ends]. intros r. cbn [io_bind fst snd].
    assert (Nz : z <> y) by (intros ->; apply N; left; reflexivity). assert (Nr : ~ In y names) by (intros I; apply N; right; exact I).
    pose proof (has_remove vars z Nz H) as H'. destruct (done_of r); [apply IH; assumption|exact H'..].
  Qed.
  Definition kept_vars (avr : args * vstore * outcome failure str) : Prop := has (snd (fst avr)).
  Lemma body_keeps pr ord a vars line id : iterates ord -> leaves_alone (a_radix a) line y -> has vars ->
    ends kept_vars (body_io pr ord the_executor line id a vars).
  Proof.
    intros Ho (Na & Nc) H. assert (Hin : forall l z, In z (ord l) -> In z l) by (intros l z; apply Permutation_in, Ho).
    unfold body_io. destruct (tokenize line (a_radix a)) as [[ts|name arg]|e|p] eqn:T; [| |exact H..].
    - eapply ends_bind; [apply ends_true|]. intros r _. destruct r as [r|e|p]; [|exact H..]. destruct ts as [|t0 ts']; [exact H|].
      destruct (syntax_tree_new _) as [t|e|p] eqn:St; [|exact H..]. eapply ends_bind with (P := keeps); [|intros vr K; exact K].
      unfold tree_io. apply then_keeps; [apply exec_keeps, H|]. intros q vars1 H1. destruct (st_var t) as [z|] eqn:Ez; [|exact H1].
      cbn [update_io io_bind ends]. intros r0. unfold keeps. cbn [fst]. apply has_insert; [|exact H1].
      intros E. apply parse_iff in St. inversion St as [ts0 n D|z0 p q0 ts0 n D]; subst; cbn [st_var] in Ez; [discriminate Ez|].
      injection Ez as <-. cbn [pd_value] in E. rewrite E in T. apply (Na _ n T). exists p, q0, ts0. split; [reflexivity|].
      match goal with D : derives 5 _ _ |- _ => exact D end.
    - eapply ends_bind with (P := fun avr : command_answer => has (snd (fst avr))).
      2:{ intros [[a' vars'] r] K. cbn [fst snd] in K. destruct r as [[m t]|e|p]; [|exact K..]. eapply ends_bind; [apply ends_true|]. intros r _. exact K. }
      unfold execute_io. fold (resolve_in (pd_value name)). destruct (resolve_in (pd_value name)) as [c|] eqn:R; [|exact H].
      assert (Cmd : forall l, command_aliases c = [] -> tokenize_variable_list (pd_value arg) = Ok l -> variable_command (a_radix a) line (command_name c) (map pd_value l)).
      { intros l A V. exists (pd_value arg), l. split; [|split; [exact V|reflexivity]]. exists name, arg. split; [exact T|]. split; [|reflexivity]. apply (resolves_plain name c A); exact R. }
      assert (Ns : forall l, command_aliases c = [] -> tokenize_variable_list (pd_value arg) = Ok l -> (command_name c = lit "purgevar" \/ command_name c = lit "reloadvar") -> ~ In y (ord (name_set l))).
      { intros l A V W I. apply (Nc _ _ (Cmd l A V) W). apply name_set_in, Hin, I. }
      destruct c; cbn [command_io];
        try (match goal with |- context[run_command ?a1 ?a2 ?a3 ?a4 ?a5 ?a6 ?a7] => destruct (run_command a1 a2 a3 a4 a5 a6 a7) as [[? ?] ?] end; exact H).
      + destruct (tokenize_variable_list _) as [l|er|p] eqn:V; [|exact H..]. eapply ends_bind with (P := keeps); [|intros vr K; exact K]. apply reload_keeps; [|exact H]. apply (Ns l eq_refl eq_refl). right. reflexivity.
      + destruct (tokenize_variable_list _) as [l|er|p] eqn:V; [|exact H..]. eapply ends_bind with (P := keeps); [|intros vr K; exact K]. apply purge_keeps; [|exact H]. apply (Ns l eq_refl eq_refl). left. reflexivity.
      + destruct (tokenize_int_list pr (pd_value arg) 10) as [[|k [|j l]]|er|p]; try exact H; [intros r; exact H|]. destruct (validate_max_history_size _); [exact H|intros r; exact H].
  Qed.
  Definition kept_answer (ans : line_answer) : Prop := has (snd (fst ans)).
  Lemma line_keeps pr ord a h vars line : iterates ord -> leaves_alone (a_radix a) line y -> has vars -> ends kept_answer (line_io pr ord the_executor line a h vars).
  Proof.
    intros Ho N H. unfold line_io. destruct (current_line h) as [text|e|p]; [|exact H..]. cbv zeta. intros r. destruct (id_of r) as [id|e|p]; [|exact H..].
    eapply ends_bind; [apply body_keeps; assumption|]. intros avr K. exact K.
  Qed.

  (** ** In a room *)
  Definition seat_keeps (s : seat) : Prop := match s with Resting u _ => has (u_vars u) | Working u t => has (u_vars u) /\ ends kept_answer t end.
  Lemma answer_keeps pr tm u ans : kept_answer ans -> seat_keeps (fst (answer_line pr tm u ans)).
  Proof.
    destruct ans as [[[a' h'] vars'] r]. unfold kept_answer. cbn [fst snd]. intros K. unfold answer_line. destruct (render r) as [text|e|p]; [|exact K..].
    set (u' := mkUi a' vars' (u_db u) h' (u_line u) (S (u_count u))). pose proof (start_line_vars pr tm u') as V. destruct (start_line pr tm u') as [[u'' out] st]. cbn [fst seat_keeps] in *. rewrite V. exact K.
  Qed.
  Lemma go_on_keeps pr tm u t : has (u_vars u) -> ends kept_answer t -> seat_keeps (fst (go_on pr tm u t)).
  Proof. intros H E. destruct t as [ans|c k]; cbn [go_on]; [apply answer_keeps, E|]. cbn [fst seat_keeps]. auto. Qed.
  Lemma begin_keeps pr ord tm u : (forall n, iterates (ord n)) -> has (u_vars u) -> (forall line, shown (u_inputs u) = Ok line -> leaves_alone (a_radix (u_args u)) line y) ->
    seat_keeps (fst (begin_line pr ord the_executor tm u)).
  Proof.
    intros Ho H N. unfold begin_line. destruct (display _ _ _ _ _) as [[l1 out1]|e|p]; [|exact H..]. unfold shown in N. destruct (current_line (u_inputs u)) as [line|e|p]; [|exact H..].
    pose proof (go_on_keeps pr tm u _ H (line_keeps pr (ord (u_count u)) (u_args u) (u_inputs u) (u_vars u) line (Ho _) (N line eq_refl) H)) as K.
    destruct (go_on _ _ _ _) as [s out]. exact K.
  Qed.
  Lemma step_keeps pr ord tm ev u : (forall n, iterates (ord n)) -> ui_good u -> has (u_vars u) ->
    (Interleave.enter ev = true -> forall line, shown (u_inputs u) = Ok line -> leaves_alone (a_radix (u_args u)) line y) ->
    has (u_vars (fst (fst (ui_step pr ord the_executor tm ev u)))).
  Proof.
    intros Ho G H N. unfold ui_step. destruct (Interleave.enter ev) eqn:En.
    - destruct ev as [k mods| | |]; try discriminate En. destruct k; try discriminate En. cbn [handle_event].
      replace (mkUi (u_args u) (u_vars u) (u_db u) (u_inputs u) (u_line u) (u_count u)) with u by (destruct u; reflexivity).
      unfold finish_line. cbv zeta. destruct (display _ _ _ _ _) as [[l1 out1]|e|p]; [|exact H|exact H].
      specialize (N eq_refl). unfold shown in N. destruct (current_line (u_inputs u)) as [input|e|p]; [|exact H|exact H]. specialize (N input eq_refl).
      set (se := mkSession (u_args u) (Some (u_inputs u)) (mkEnv (Some (u_vars u)) (u_db u))).
      destruct (calculate pr (ord (u_count u)) the_executor input se) as [se' r] eqn:C. destruct G as (A & B & R).
      assert (Rm : remembered (s_env se') y v).
      { refine (line_spares pr _ input se se' r y v A B C _ _); [|exists (u_vars u); split; [reflexivity|exact H]]. destruct N as (N1 & N2). split; [apply Ho|]. split; [|exact N2].
        intros ts n Ex As. destruct (N1 ts n Ex As). }
      destruct Rm as (m & Em & Hm). rewrite Em. destruct (render r) as [text|e|p]; [|exact Hm|exact Hm].
      match goal with |- context [start_line pr tm ?u0] => pose proof (start_line_vars pr tm u0) as V; destruct (start_line pr tm u0) as [[u'' out3] st] end.
      cbn [fst] in *. rewrite V. exact Hm.
    - destruct (handle_event ev (u_line u) (u_inputs u) (u_db u)) as [[[l' h'] db'] act] eqn:E. destruct act; try exact H.
      + destruct (display _ _ _ _ _) as [[l'' out]|e|p]; exact H.
      + exfalso. apply enter_only in E. destruct E as ((mods & ->) & _). discriminate En.
  Qed.

  Lemma turn_keeps pr ord tm tn w i s : (forall j n, iterates (ord j n)) -> sound_room w -> r_seat w i = Some s -> seat_keeps s ->
    (forall mods u line, tn = Receives i (EvKey KEnter mods) -> s = Resting u Running -> shown (u_inputs u) = Ok line -> leaves_alone (a_radix (u_args u)) line y) ->
    exists s', r_seat (fst (room_step pr ord the_executor tm tn w)) i = Some s' /\ seat_keeps s'.
  Proof.
    intros Ho Sd Sk K N. assert (Oth : forall file j s0, j <> i -> exists s', r_seat (mkRoom file (seated (r_seat w) j s0)) i = Some s' /\ seat_keeps s') by (intros file j s0 D; exists s; cbn; rewrite seated_other; auto).
    assert (Same : exists s', r_seat w i = Some s' /\ seat_keeps s') by eauto.
    assert (New : forall file s0, seat_keeps s0 -> exists s', r_seat (mkRoom file (seated (r_seat w) i s0)) i = Some s' /\ seat_keeps s') by (intros file s0 K0; exists s0; cbn; rewrite seated_same; auto).
    destruct tn as [j a wanted|j ev|j]; cbn [room_step].
    - destruct (Nat.eq_dec j i) as [->|D]; [rewrite Sk; exact Same|]. destruct (r_seat w j); [exact Same|]. destruct wanted as [faults|].
      + destruct (sd_open faults (r_file w)) as [file [sd|e|p]]; [|exact Same..]. destruct (interactive_start pr (tm j) a (Some sd)) as [[u' out] st]. apply Oth, D.
      + destruct (interactive_start pr (tm j) a None) as [[u' out] st]. apply Oth, D.
    - destruct (Nat.eq_dec j i) as [->|D].
      2:{ destruct (r_seat w j) as [[u' e|u' t']|]; [|exact Same..]. destruct e; try exact Same.
          destruct (enter ev); [destruct (u_db u')|]; [destruct (begin_line _ _ _ _ _) as [s2 out]|destruct (ui_step _ _ _ _ _ _) as [[u2 out] st]..]; apply Oth, D. }
      rewrite Sk. destruct s as [u e|u t]; [|exact Same]. destruct e; try exact Same.
      assert (G : ui_good (with_file (r_file w) u)) by (destruct Sd as (_ & Sd); apply (Sd i _ Sk); reflexivity).
      assert (N' : enter ev = true -> forall line, shown (u_inputs (with_file (r_file w) u)) = Ok line -> leaves_alone (a_radix (u_args (with_file (r_file w) u))) line y).
      { intros En. destruct ev as [k mods| | |]; try discriminate En. destruct k; try discriminate En. intros line. exact (N mods u line eq_refl eq_refl). }
      assert (Ui : exists s', r_seat (fst (let '(u', out, st) := ui_step pr (ord i) the_executor (tm i) ev (with_file (r_file w) u) in
              (mkRoom (file_of (r_file w) u') (seated (r_seat w) i (Resting u' (ending_of st))), out))) i = Some s' /\ seat_keeps s').
      { pose proof (step_keeps pr (ord i) (tm i) ev (with_file (r_file w) u) (Ho i) G K N') as K'. destruct (ui_step _ _ _ _ _ _) as [[u' out] st]. apply New, K'. }
      destruct (enter ev) eqn:En; [|exact Ui]. destruct (u_db u) as [sd|] eqn:Ed; [|exact Ui].
      pose proof (begin_keeps pr (ord i) (tm i) (with_file (r_file w) u) (Ho i) K (N' eq_refl)) as B. destruct (begin_line _ _ _ _ _) as [s2 out]. apply New, B.
    - destruct (Nat.eq_dec j i) as [->|D].
      2:{ destruct (r_seat w j) as [[u' e|u' t']|]; [exact Same| |exact Same]. destruct t' as [ans|c k]; [exact Same|]. destruct (u_db u'); [|exact Same].
          destruct (perform _ _) as [sd' r]. destruct (go_on _ _ _ _) as [s' out]. apply Oth, D. }
      rewrite Sk. destruct s as [u e|u t]; [exact Same|]. destruct t as [ans|c k]; [exact Same|]. destruct (u_db u) as [sd|]; [|exact Same].
      destruct (perform _ _) as [sd' r]. destruct K as (K1 & K2). pose proof (go_on_keeps pr (tm i) (with_db u (Some sd')) (k r) K1 (K2 r)) as G. destruct (go_on _ _ _ _) as [s' out]. apply New, G.
  Qed.
  Lemma run_keeps pr ord tm i turns : (forall j n, iterates (ord j n)) -> forall w s, Forall proper_turn turns -> sound_room w -> r_seat w i = Some s -> seat_keeps s ->
    unaltered pr ord the_executor tm i y turns w -> exists s', r_seat (room_run pr ord the_executor tm turns w) i = Some s' /\ seat_keeps s'.
  Proof.
    intros Ho. induction turns as [|tn turns IH]; intros w s P Sd Sk K Un; [cbn; eauto|]. apply Forall_cons_iff in P as [P1 P2]. cbn [room_run].
    destruct (turn_keeps pr ord tm tn w i s Ho Sd Sk K) as (s' & Sk' & K').
    { intros mods u line -> -> L. exact (Un [] mods turns u line eq_refl Sk L). }
    apply (IH _ s' P2 (sound_turn pr ord the_executor tm tn w Ho P1 Sd) Sk' K'). intros before mods after u line -> Sb L. exact (Un (tn :: before) mods after u line eq_refl Sb L).
  Qed.
End Keep.
