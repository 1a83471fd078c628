(** ProofsPure.v -- the reply to an expression line of a working session as a function of the values of its variables. *)
From Verif Require Import Base Position Num TokenTypes Errors Token SavedData Variables InputHistory
  SyntaxTree Commands Calculate Editor Sessions SpecGrammar SpecEval SpecPrint SpecHistory SpecEditor SpecCalc SpecSession.
From Verif Require Import ProofsNum ProofsParse2 ProofsEval ProofsEval3 ProofsEval2 ProofsPrint4 ProofsEditor4
  ProofsCalc ProofsCalc2 ProofsCalc3 ProofsCalc4 ProofsCalc6 ProofsCalc7 ProofsCalc8 ProofsCalc9 ProofsCalc10 ProofsCalm ProofsCalm2 ProofsSession2.
From Coq Require Import String Lia.
Local Open Scope list_scope.

Section Pure.
  Context (pr : profile) (a : args) (lk : str -> position -> outcome failure Q).
  Fixpoint pev (n : node) : outcome failure Q :=
    match n with
    | NNum v _ => Ok v
    | NVar x p => lk x p
    | NUn o p m => bind (pev m) (exec_unary pr a o p)
    | NBin o p l r => bind (pev l) (fun vl => bind (pev r) (fun vr => exec_binary pr a o p vl vr))
    | NFun f p ns _ =>
        bind ((fix go (l : list node) : outcome failure (list Q) :=
                 match l with [] => Ok [] | m :: l' => bind (pev m) (fun v => bind (go l') (fun vs => Ok (v :: vs))) end) ns)
             (exec_function f p)
    | NParen _ _ m => pev m
    end.
  Fixpoint pevs (l : list node) : outcome failure (list Q) :=
    match l with [] => Ok [] | m :: l' => bind (pev m) (fun v => bind (pevs l') (fun vs => Ok (v :: vs))) end.
  Lemma pev_fun f p ns w : pev (NFun f p ns w) = bind (pevs ns) (exec_function f p).
  Proof. reflexivity. Qed.
End Pure.

(** What looking a variable up gives. *)
Definition looked (s : env) (x : str) (p : position) : outcome failure Q := snd (exec_variable x p s).

Lemma looked_cases s x p : env_ok s -> no_faults s ->
  (e_vars s = None /\ looked s x p = Err (no_variable_store p)) \/
  (e_vars s <> None /\ (exists v, var_value s x v /\ looked s x p = Ok v)) \/
  (e_vars s <> None /\ (forall v, ~ var_value s x v) /\ looked s x p = Err (unknown_variable x p)).
Proof.
  intros Hs Nf. unfold looked. destruct (exec_variable x p s) as [s' o] eqn:E.
  destruct (exec_variable_sound x p s s' o Hs E) as (_ & R & C). cbn [snd].
  remember (result_of o) as res eqn:Er. destruct R as [V|m v q Em Hv Hq|m sd v q Em Hn Es Ho Hq|m Em Hn Es|m sd Em Hn Es Ho|m sd Em Hn Es Hf]; destruct o as [w|e|pp]; try discriminate Er.
  - left. split; [exact V|]. injection Er as ->. reflexivity.
  - right; left. split; [congruence|]. exists v. injection Er as ->. split; [exists m; auto|]. f_equal.
    apply canon_inj; [apply C; reflexivity|exact (proj1 Hs m x v Em Hv)|exact Hq].
  - right; left. split; [congruence|]. exists v. injection Er as ->. split; [exists m; split; [exact Em|right; split; [exact Hn|eauto]]|]. f_equal.
    apply canon_inj; [apply C; reflexivity|destruct Ho as (r & _ & _ & K & _); exact K|exact Hq].
  - right; right. split; [congruence|]. injection Er as ->. split; [|reflexivity].
    intros v (m' & Em' & [H|(_ & sd & Es' & _)]); congruence.
  - right; right. split; [congruence|]. injection Er as ->. split; [|reflexivity].
    intros v (m' & Em' & [H|(_ & sd' & Es' & r & Hr & Nr & _)]); [congruence|]. assert (sd' = sd) as -> by congruence. exact (Ho r Hr Nr).
  - destruct (Nf sd Es Hf).
Qed.

(** Two states in which the variable has the same value. *)
Lemma looked_same s s' x p : env_ok s -> no_faults s -> env_ok s' -> no_faults s' ->
  (e_vars s = None <-> e_vars s' = None) -> (forall v, var_value s x v <-> var_value s' x v) -> looked s x p = looked s' x p.
Proof.
  intros Hs Nf Hs' Nf' V H.
  destruct (looked_cases s x p Hs Nf) as [(A & ->)|[(A & v & B & ->)|(A & B & ->)]],
    (looked_cases s' x p Hs' Nf') as [(A' & ->)|[(A' & v' & B' & ->)|(A' & B' & ->)]]; try reflexivity; try (exfalso; tauto).
  - apply H in B. f_equal. destruct B as (m & E & B), B' as (m' & E' & B'). assert (m' = m) as -> by congruence.
    destruct B as [B|(B & sd & Es & O)], B' as [B'|(B' & sd' & Es' & O')]; try congruence.
    assert (sd' = sd) as -> by congruence. eapply on_disk_inj; [exact (proj2 Hs' sd Es)| |]; eassumption.
  - exfalso. apply (B' v). apply H. exact B.
  - exfalso. apply (B v'). apply H. exact B'.
Qed.

Lemma grows_calm s s' : no_faults s -> grows s s' -> no_faults s'.
Proof.
  intros N (_ & D) sd E K. rewrite E in D. destruct (e_db s) as [sd0|] eqn:E0; [|contradiction]. destruct D as (_ & _ & c & F).
  apply (N sd0 E0). rewrite F. apply in_app_iff. right. exact K.
Qed.
Lemma looked_grows s s' x p : env_ok s -> no_faults s -> grows s s' -> looked s' x p = looked s x p.
Proof.
  intros Hs Nf G. symmetry. apply looked_same; auto.
  - eapply grows_ok; eauto.
  - eapply grows_calm; eauto.
  - destruct G as (V & _). destruct (e_vars s), (e_vars s'); try contradiction; split; congruence.
  - intros v. apply grows_var_value; assumption.
Qed.
Lemma looked_settled s s' x p : env_ok s -> no_faults s -> settled s s' -> no_faults s' -> looked s' x p = looked s x p.
Proof.
  intros Hs Nf G Nf'. symmetry. apply looked_same; auto.
  - eapply settled_ok; eauto.
  - rewrite (proj1 G). tauto.
  - intros v. apply settled_value; assumption.
Qed.

Lemma node_cases (P : node -> Prop) : (forall v p, P (NNum v p)) -> (forall x p, P (NVar x p)) -> (forall o p n, P n -> P (NUn o p n)) ->
  (forall o p l r, P l -> P r -> P (NBin o p l r)) -> (forall f p ns w, (forall n, In n ns -> P n) -> P (NFun f p ns w)) ->
  (forall p q n, P n -> P (NParen p q n)) -> forall n, P n.
Proof.
  intros H1 H2 H3 H4 H5 H6. fix F 1. intros [v p|x p|o p n|o p l r|f p ns w|p q n].
  - apply H1.
  - apply H2.
  - apply H3, F.
  - apply H4; apply F.
  - apply H5. induction ns as [|m ns IH]; intros n Hn; [destruct Hn|]. destruct Hn as [<-|Hn]; [apply F|apply IH; exact Hn].
  - apply H6, F.
Qed.
(** Evaluation computes [pev] of the values in the state it starts from. *)
Lemma exec_pev pr a s0 n : env_ok s0 -> no_faults s0 -> forall s, grows s0 s ->
  snd (exec pr a n s) = pev pr a (looked s0) n /\ grows s0 (fst (exec pr a n s)).
Proof.
  intros Hs Nf. induction n as [v p|x p|o p n IH|o p l r IHl IHr|f p ns w IH|p q n IH] using node_cases; intros s G.
  - cbn. auto.
  - cbn [exec pev]. split; [exact (looked_grows s0 s x p Hs Nf G)|].
    destruct (exec_variable x p s) as [s' o] eqn:E. destruct (exec_variable_sound x p s s' o (grows_ok _ _ Hs G) E) as (G1 & _). eapply grows_trans; eauto.
  - cbn [exec pev]. destruct (IH s G) as (A & B). destruct (exec pr a n s) as [s1 [v|e|q]]; cbn [fst snd then_do] in *; rewrite <- A; cbn [bind]; auto.
  - cbn [exec pev]. destruct (IHl s G) as (A & B). destruct (exec pr a l s) as [s1 [v|e|q]]; cbn [fst snd then_do] in *; rewrite <- A; cbn [bind]; auto.
    destruct (IHr s1 B) as (A2 & B2). destruct (exec pr a r s1) as [s2 [v2|e|q]]; cbn [fst snd then_do] in *; rewrite <- A2; cbn [bind]; auto.
  - rewrite pev_fun. cbn [exec]. match goal with |- context [then_do (?F ns s) _] => set (go := F) end.
    assert (K : forall s, grows s0 s -> snd (go ns s) = pevs pr a (looked s0) ns /\ grows s0 (fst (go ns s))).
    { clear s G. induction ns as [|m ns IHn]; intros s G; [split; [reflexivity|exact G]|]. cbn [go pevs].
      change (go (m :: ns) s) with (then_do (exec pr a m s) (fun v s1 => then_do (go ns s1) (fun vs s2 => (s2, Ok (v :: vs))))).
      destruct (IH m (or_introl eq_refl) s G) as (A & B). destruct (exec pr a m s) as [s1 [v|e|q]]; cbn [fst snd then_do] in *; rewrite <- A; cbn [bind]; auto.
      destruct (IHn (fun n Hn => IH n (or_intror Hn)) s1 B) as (A2 & B2). destruct (go ns s1) as [s2 [v2|e|q]]; cbn [fst snd then_do] in *; rewrite <- A2; cbn [bind]; auto. }
    destruct (K s G) as (A & B). destruct (go ns s) as [s1 [v|e|q]]; cbn [fst snd then_do] in *; rewrite <- A; cbn [bind]; auto.
  - cbn [exec pev]. apply IH. exact G.
Qed.

(** The reply to an expression line. *)
Definition pure_reply (pr : profile) (a : args) (store : bool) (lk : str -> position -> outcome failure Q) (ts : list ptoken) : outcome failure str :=
  match ts with
  | [] => Ok []
  | _ =>
      match syntax_tree_new ts with
      | Panic p => Panic p
      | Err e => Err (fail_syntax e)
      | Ok t => bind (pev pr a lk (st_root t)) (fun v =>
          match st_var t with
          | Some y => if store then format_result a v else Err (no_variable_store (pd_pos y))
          | None => format_result a v
          end)
      end
  end.
Definition has_store (s : env) : bool := match e_vars s with Some _ => true | None => false end.

Lemma body_pure pr ord x input id a s a' s' r ts : valid_settings a -> env_ok s -> accepts id (e_db s) ->
  tokenize input (a_radix a) = Ok (PTokens ts) -> calculate_body pr ord x input id a s = (a', s', r) ->
  r = pure_reply pr a (has_store s) (looked s) ts /\
  (forall text y p n, r = Ok text -> syntax_tree_new ts = Ok (mkTree (Some (mkPositioned y p)) n) -> exists v, pev pr a (looked s) n = Ok v /\ remembered s' y v).
Proof.
  intros Ha Hs H T. unfold calculate_body. rewrite T.
  destruct (touch_all (ord (token_variables ts)) id s) as [s1 r1] eqn:Et. destruct (touch_all_settled _ _ _ _ _ Et) as (St & _).
  pose proof (settled_ok _ _ St Hs) as Hs1. destruct (touch_all_calm _ _ _ _ _ H Et) as (-> & H1).
  destruct ts as [|t0 ts']; [intros E; apply pair_equal_spec in E as [E <-]; split; [reflexivity|]; intros text y p n _ X; discriminate X|]. unfold pure_reply.
  destruct (syntax_tree_new (t0 :: ts')) as [t|e|p] eqn:P; [|intros E; apply pair_equal_spec in E as [E <-]; (split; [reflexivity|]; discriminate)..].
  pose proof (typed_literals input (a_radix a) _ t (proj1 Ha) T P) as Lit.
  assert (Nf : no_faults s) by (intros sd E; apply (accepts_calm _ _ H sd E)).
  assert (Nf1 : no_faults s1) by (intros sd E; apply (accepts_calm _ _ H1 sd E)).
  destruct (exec_pev pr a s1 (st_root t) Hs1 Nf1 s1 (grows_refl s1)) as (V & G).
  assert (L : pev pr a (looked s1) (st_root t) = pev pr a (looked s) (st_root t)).
  { clear -Hs Nf St Nf1 Lit. induction Lit as [v p C|y p|o p n _ IH|o p l r _ IHl _ IHr|f p ns w _ IH|p q n _ IH]; try reflexivity.
    - exact (looked_settled s s1 y p Hs Nf St Nf1).
    - cbn [pev]. rewrite IH. reflexivity.
    - cbn [pev]. rewrite IHl, IHr. reflexivity.
    - rewrite !pev_fun. f_equal. induction ns as [|m ns IHn]; [reflexivity|]. cbn [pevs]. rewrite (IH m (or_introl eq_refl)), IHn; [reflexivity|].
      intros n Hn. apply IH. right. exact Hn.
    - exact IH. }
  rewrite <- L, <- V. unfold tree_execute. destruct (exec pr a (st_root t) s1) as [s3 r3] eqn:Ee. cbn [fst snd] in *.
  assert (Sv : has_store s = match e_vars s3 with Some _ => true | None => false end).
  { destruct G as (G & _). rewrite (proj1 St) in G. unfold has_store. destruct (e_vars s), (e_vars s3); try contradiction; reflexivity. }
  pose proof (accepts_same id _ _ (grows_same _ _ Hs1 G) H1) as H3.
  destruct r3 as [v|e|p]; cbn [then_do bind].
  2,3: intros E; apply pair_equal_spec in E as [E <-]; (split; [reflexivity|]; discriminate).
  destruct t as [[[y p]|] n]; cbn [st_var st_root] in *; [|intros E; apply pair_equal_spec in E as [E <-]; split; [reflexivity|]; intros; discriminate].
  rewrite Sv. cbn [pd_value pd_pos]. destruct (e_vars s3) as [m|]; [|intros E; apply pair_equal_spec in E as [E <-]; split; [reflexivity|]; discriminate].
  destruct (vs_update m y v id (e_db s3)) as [[m' odb'] r4] eqn:U. destruct (vs_update_calm _ _ _ _ _ _ _ _ H3 U) as (-> & H4).
  unfold vs_update in U. cbv zeta in U. assert (Em : m' = vs_insert m y v).
  { destruct (match e_db s3 with Some _ => _ | None => _ end) as [db0 r0]. apply pair_equal_spec in U as [U _]. apply pair_equal_spec in U as [U _]. auto. }
  intros E; apply pair_equal_spec in E as [E <-]. apply pair_equal_spec in E as [_ <-]. split; [reflexivity|].
  intros text y0 p0 n0 _ X. injection X as <- <- <-. exists v. rewrite <- L, <- V. split; [reflexivity|]. exists m'. split; [reflexivity|].
  rewrite Em, vs_get_insert. rewrite (proj2 (str_eqb_spec y y) eq_refl). reflexivity.
Qed.

Lemma working_line pr ord x input se se' r ts : working_session se -> is_expression (a_radix (s_args se)) input ts ->
  calculate pr ord x input se = (se', r) ->
  r = pure_reply pr (s_args se) (has_store (s_env se)) (looked (after_recording se)) ts /\
  (forall text y p n, r = Ok text -> line_tree ts (mkTree (Some (mkPositioned y p)) n) ->
     exists v, pev pr (s_args se) (looked (after_recording se)) n = Ok v /\ remembered (s_env se') y v).
Proof.
  intros W T C. pose proof W as (A & B & R & N & H). destruct (recording_ok se B) as (Rok & Rv & _).
  assert (Es : has_store (s_env se) = has_store (after_recording se)) by (unfold has_store; rewrite Rv; reflexivity). rewrite Es.
  destruct (calculate_cases _ _ _ _ _ _ _ C) as [(_ & _ & h & h' & db' & o & Eh & _ & F & D)|(id & Bd & Hid & Hi)].
  - exfalso. pose proof (calculate_calm _ _ _ _ _ _ _ A B R N (working_inputs se W) C) as (Nr & _).
    destruct D as [(e & _ & ->)|(p & -> & _)]; [exact (Nr e eq_refl)|]. apply (recording_no_panic se h p W Eh). rewrite F. reflexivity.
  - assert (K : accepts id (e_db (after_recording se))).
    2:{ destruct (body_pure _ _ _ _ _ _ _ _ _ _ _ A Rok K T Bd) as (X & Y). split; [exact X|]. intros text y p n Er L. apply (Y text y p n Er). apply parse_iff. exact L. }
    unfold after_recording in *. destruct (s_inputs se) as [h|].
    + destruct Hi as (h' & db' & _ & F). rewrite F. cbn [fst snd e_db]. unfold input_finished in F.
      destruct (current_line h) as [line|e|p]; [|apply pair_equal_spec in F as [_ F]; discriminate F..].
      destruct (e_db (s_env se)) as [sd|] eqn:Ed.
      * destruct (add_to_input_history line sd) as [sd' o] eqn:Ad. destruct (add_calm _ _ _ _ (N sd Ed) (R sd Ed) Ad) as (i & -> & Ac).
        apply pair_equal_spec in F as [F F2]. apply pair_equal_spec in F as [_ <-]. injection F2 as <-. exact Ac.
      * apply pair_equal_spec in F as [F F2]. apply pair_equal_spec in F as [_ <-]. injection F2 as <-. exact I.
    + destruct Hi as (_ & ->). rewrite H. exact I.
Qed.
Lemma working_pure pr ord x input se se' r ts : working_session se -> is_expression (a_radix (s_args se)) input ts ->
  calculate pr ord x input se = (se', r) ->
  r = pure_reply pr (s_args se) (has_store (s_env se)) (looked (after_recording se)) ts.
Proof. intros W T C. exact (proj1 (working_line _ _ _ _ _ _ _ _ W T C)). Qed.
