(** ProofsUnrelated.v -- unrelated lines can be entered in any order. *)
From Verif Require Import Base Position Num TokenTypes Errors Token SavedData Variables InputHistory
  SyntaxTree Commands Calculate Editor Sessions SpecGrammar SpecEval SpecPrint SpecHistory SpecEditor SpecCalc SpecSession SpecUnrelated.
From Verif Require Import ProofsNum ProofsParse2 ProofsParse3 ProofsEval ProofsEval3 ProofsEval2 ProofsPrint4 ProofsEditor4
  ProofsCalc ProofsCalc2 ProofsCalc3 ProofsCalc4 ProofsCalc6 ProofsCalc7 ProofsCalc8 ProofsCalc9 ProofsCalc10 ProofsCalm ProofsCalm2 ProofsSession2 ProofsPure ProofsCompose.
From Coq Require Import String Lia List Permutation.
Local Open Scope nat_scope.
Local Open Scope list_scope.

(** What is in memory. *)
Definition mem (s : env) (y : str) : option Q := match e_vars s with Some m => vs_get m y | None => None end.
Lemma mem_remembered s y v : remembered s y v <-> mem s y = Some v.
Proof.
  unfold remembered, mem. split.
  - intros (m & -> & H). exact H.
  - destruct (e_vars s) as [m|]; [eauto|discriminate].
Qed.
Lemma remembered_value s y v : remembered s y v -> var_value s y v.
Proof. intros (m & E & H). exists m. auto. Qed.
Lemma grows_mem s s' y v : grows s s' -> mem s y = Some v -> mem s' y = Some v.
Proof. intros [V _]. unfold mem. destruct (e_vars s), (e_vars s'); try contradiction; [|discriminate]. apply (proj1 V). Qed.
Lemma grows_hand s s' y : env_ok s -> grows s s' -> at_hand s y -> mem s' y = mem s y.
Proof.
  intros Hs G H. destruct (mem s y) as [v|] eqn:E; [exact (grows_mem _ _ _ _ G E)|]. destruct (mem s' y) as [v|] eqn:E'; [|reflexivity].
  apply mem_remembered in E'. apply remembered_value in E'. apply (grows_var_value _ _ _ _ Hs G) in E'. apply H, mem_remembered in E'. congruence.
Qed.
Lemma lookup_mem x p s s' o y : exec_variable x p s = (s', o) -> y <> x -> mem s' y = mem s y.
Proof.
  unfold exec_variable. intros E N. destruct (e_vars s) as [m|] eqn:Ev; [|apply pair_equal_spec in E as [<- _]; reflexivity].
  destruct (vs_lookup m x (e_db s)) as [[m' d'] r] eqn:L. apply pair_equal_spec in E as [<- _]. unfold mem. rewrite Ev. cbn [e_vars].
  unfold vs_lookup in L. destruct (vs_get m x) as [v|]; [apply pair_equal_spec in L as [L _]; apply pair_equal_spec in L as [<- _]; reflexivity|].
  destruct (e_db s) as [sd|]; [|apply pair_equal_spec in L as [L _]; apply pair_equal_spec in L as [<- _]; reflexivity].
  destruct (vs_reload m x sd) as [[m1 d1] r1] eqn:R. apply pair_equal_spec in L as [L _]. apply pair_equal_spec in L as [<- _].
  unfold vs_reload in R. destruct (get_variable x sd) as [sd1 [[v|]|e|q]]; apply pair_equal_spec in R as [R _]; apply pair_equal_spec in R as [<- _];
    rewrite ?vs_get_insert, ?vs_get_remove; try reflexivity;
    (destruct (str_eqb y x) eqn:Q; [apply str_eqb_spec in Q; contradiction|reflexivity]).
Qed.

(** Evaluation brings only the variables of the expression into memory. *)
Lemma exec_mem pr a y :
  (forall k ts n, derives k ts n -> ~ mentions ts y -> forall s, mem (fst (exec pr a n s)) y = mem s y) /\
  (forall ts ns, derives_args ts ns -> ~ mentions ts y -> forall s, mem (fst (exec_list pr a ns s)) y = mem s y) /\
  (forall ts ns, derives_list ts ns -> ~ mentions ts y -> forall s, mem (fst (exec_list pr a ns s)) y = mem s y).
Proof.
  apply derives_mutind.
  - reflexivity.
  - intros x p N s. cbn [exec]. destruct (exec_variable x p s) as [s' o] eqn:E. apply (lookup_mem _ _ _ _ _ _ E). intros ->. apply N. exists p. left. reflexivity.
  - intros o p ts n _ IH N s. cbn [exec]. specialize (IH ltac:(intros (q & Hq); apply N; exists q; right; exact Hq) s).
    destruct (exec pr a n s) as [s1 [v|e|q]]; exact IH.
  - intros p q ts n _ IH N s. cbn [exec]. apply IH. intros (r & Hr). apply N. exists r. right. apply in_app_iff. left. exact Hr.
  - intros f p ts n _ IH _ N s. rewrite exec_fun, exec_list_cons. specialize (IH ltac:(intros (q & Hq); apply N; exists q; right; exact Hq) s).
    destruct (exec pr a n s) as [s1 [v|e|q]]; exact IH.
  - intros f p o c ts ns _ IH N s. rewrite exec_fun. specialize (IH ltac:(intros (q & Hq); apply N; exists q; right; right; apply in_app_iff; left; exact Hq) s).
    destruct (exec_list pr a ns s) as [s1 [v|e|q]]; exact IH.
  - intros p ts n _ IH N s. cbn [exec]. specialize (IH ltac:(intros (q & Hq); apply N; exists q; right; exact Hq) s).
    destruct (exec pr a n s) as [s1 [v|e|q]]; exact IH.
  - intros k o p ts1 ts2 n1 n2 _ _ IH1 _ IH2 N s. cbn [exec].
    specialize (IH1 ltac:(intros (q & Hq); apply N; exists q; apply in_app_iff; left; exact Hq) s).
    destruct (exec pr a n1 s) as [s1 [v|e|q]]; try exact IH1. cbn [then_do fst] in *.
    specialize (IH2 ltac:(intros (q & Hq); apply N; exists q; apply in_app_iff; right; right; exact Hq) s1).
    destruct (exec pr a n2 s1) as [s2 [w|e|q]]; cbn [then_do fst] in *; congruence.
  - auto.
  - reflexivity.
  - auto.
  - intros ts n _ IH N s. rewrite exec_list_cons. specialize (IH N s). destruct (exec pr a n s) as [s1 [v|e|q]]; exact IH.
  - intros ts p ts' n ns _ IH1 _ IH2 N s. rewrite exec_list_cons.
    specialize (IH1 ltac:(intros (q & Hq); apply N; exists q; apply in_app_iff; left; exact Hq) s).
    destruct (exec pr a n s) as [s1 [v|e|q]]; try exact IH1. cbn [then_do fst] in *.
    specialize (IH2 ltac:(intros (q & Hq); apply N; exists q; apply in_app_iff; right; right; exact Hq) s1).
    destruct (exec_list pr a ns s1) as [s2 [w|e|q]]; cbn [then_do fst] in *; congruence.
Qed.

(** An expression line as a function of what is in memory. *)
Section Pure.
  Context (pr : profile) (a : args) (st : bool).
  Definition memlook (M : str -> option Q) (y : str) (p : position) : outcome failure Q :=
    if st then match M y with Some v => Ok v | None => Err (unknown_variable y p) end else Err (no_variable_store p).
  Definition reply_of (M : str -> option Q) (ts : list ptoken) : outcome failure str := pure_reply pr a st (memlook M) ts.
  Definition new_value (lk : str -> position -> outcome failure Q) (ts : list ptoken) : option (str * Q) :=
    match syntax_tree_new ts with
    | Ok (mkTree (Some x) n) => match pev pr a lk n with Ok v => if st then Some (pd_value x, v) else None | _ => None end
    | _ => None
    end.
  Definition updated (M : str -> option Q) (w : option (str * Q)) (y : str) : option Q :=
    match w with Some (x, v) => if str_eqb y x then Some v else M y | None => M y end.
  Definition mem_after (M : str -> option Q) (ts : list ptoken) : str -> option Q := updated M (new_value (memlook M) ts).

  Lemma uses_tree ts t y : line_tree ts t -> ~ uses ts y -> exists ts', derives 5 ts' (st_root t) /\ ~ mentions ts' y.
  Proof.
    intros L N. destruct L as [ts n D|x p q ts n D]; cbn [st_root].
    - exists ts. split; [exact D|]. intros Hm. apply N. unfold uses. destruct ts as [|t0 [|e rest]]; [exact Hm..|].
      destruct (pd_value t0) eqn:E0; try exact Hm. destruct (pd_value e) eqn:E1; try exact Hm. exfalso.
      destruct t0 as [t0 p0], e as [e q0]. cbn in E0, E1. subst t0 e.
      refine (proj1 derives_no_assign _ _ _ D q0 _). right. left. reflexivity.
    - exists ts. split; [exact D|]. exact N.
  Qed.
  Lemma new_value_tree lk ts t : line_tree ts t -> new_value lk ts =
    match st_var t with Some x => match pev pr a lk (st_root t) with Ok v => if st then Some (pd_value x, v) else None | _ => None end | None => None end.
  Proof. intros L. apply parse_iff in L. unfold new_value. rewrite L. destruct t as [[x|] n]; reflexivity. Qed.
  (** Only the variables that are used matter. *)
  Lemma tree_ext lk lk' ts t : line_tree ts t -> (forall y p, uses ts y -> lk y p = lk' y p) -> pev pr a lk (st_root t) = pev pr a lk' (st_root t).
  Proof.
    intros L H. inversion L as [ts0 n D|x p q ts0 n D]; subst; cbn [st_root]; apply (proj1 (pev_ext pr a lk lk') 5 _ _ D); intros y r Hi; apply H.
    - unfold uses. assert (Hm : mentions ts y) by (exists r; exact Hi). destruct ts as [|t0 [|e rest]]; [exact Hm..|].
      destruct (pd_value t0) eqn:E0; try exact Hm. destruct (pd_value e) eqn:E1; try exact Hm. exfalso. destruct e as [e q0]. cbn in E1. subst e.
      refine (proj1 derives_no_assign _ _ _ D q0 _). right. left. reflexivity.
    - exists r. exact Hi.
  Qed.
  Lemma reply_uses lk lk' ts : (forall y p, uses ts y -> lk y p = lk' y p) -> pure_reply pr a st lk ts = pure_reply pr a st lk' ts.
  Proof.
    intros H. destruct (syntax_tree_new ts) as [t|e|p] eqn:P; [|unfold pure_reply; rewrite P; reflexivity..].
    apply parse_iff in P. rewrite !(pure_reply_tree _ _ _ _ _ _ P), (tree_ext _ _ _ _ P H). reflexivity.
  Qed.
  Lemma new_value_uses lk lk' ts : (forall y p, uses ts y -> lk y p = lk' y p) -> new_value lk ts = new_value lk' ts.
  Proof.
    intros H. destruct (syntax_tree_new ts) as [t|e|p] eqn:P; [|unfold new_value; rewrite P; reflexivity..].
    apply parse_iff in P. rewrite !(new_value_tree _ _ _ P), (tree_ext _ _ _ _ P H). reflexivity.
  Qed.
End Pure.

Lemma mentions_dec ts y : mentions ts y \/ ~ mentions ts y.
Proof.
  induction ts as [|[t p] ts IH]; [right; intros (q & [])|].
  destruct IH as [(q & Hq)|N]; [left; exists q; right; exact Hq|].
  assert (K : t = TVariable y \/ t <> TVariable y).
  { destruct t; try (right; discriminate). match goal with |- TVariable ?x = _ \/ _ => destruct (str_eqb x y) eqn:E end.
    - apply str_eqb_spec in E. left. congruence.
    - right. intros X. injection X as ->. rewrite (proj2 (str_eqb_spec y y) eq_refl) in E. discriminate. }
  destruct K as [->|K]; [left; exists p; left; reflexivity|]. right. intros (q & [E|Hq]); [injection E as E _; contradiction|apply N; exists q; exact Hq].
Qed.
Lemma uses_dec ts y : uses ts y \/ ~ uses ts y.
Proof.
  unfold uses. destruct ts as [|t0 [|e rest]]; try apply mentions_dec. destruct (pd_value t0); try apply mentions_dec. destruct (pd_value e); apply mentions_dec.
Qed.

(** Interpreting the line. *)
Lemma body_mem pr ord x input id a s a' s' r ts y : valid_settings a -> env_ok s -> accepts id (e_db s) ->
  tokenize input (a_radix a) = Ok (PTokens ts) -> calculate_body pr ord x input id a s = (a', s', r) ->
  (uses ts y -> at_hand s y) ->
  mem s' y = updated (mem s) (new_value pr a (has_store s) (looked s) ts) y.
Proof.
  intros Ha Hs H T B Hy. revert B. unfold calculate_body. rewrite T.
  destruct (touch_all (ord (token_variables ts)) id s) as [s1 r1] eqn:Et. destruct (touch_all_settled _ _ _ _ _ Et) as (St & _).
  pose proof (settled_ok _ _ St Hs) as Hs1. destruct (touch_all_calm _ _ _ _ _ H Et) as (-> & H1).
  assert (M1 : forall z, mem s1 z = mem s z) by (intros z; unfold mem; rewrite (proj1 St); reflexivity).
  destruct ts as [|t0 ts']; [intros E; apply pair_equal_spec in E as [E _]; apply pair_equal_spec in E as [_ <-]; rewrite M1; reflexivity|].
  destruct (syntax_tree_new (t0 :: ts')) as [t|e|p] eqn:P.
  2,3: intros E; apply pair_equal_spec in E as [E _]; apply pair_equal_spec in E as [_ <-]; rewrite M1; unfold new_value; rewrite P; reflexivity.
  pose proof P as L. apply parse_iff in L. 
  assert (Nf : no_faults s) by (intros sd E; apply (accepts_calm _ _ H sd E)).
  assert (Nf1 : no_faults s1) by (intros sd E; apply (accepts_calm _ _ H1 sd E)).
  destruct (exec_pev pr a s1 (st_root t) Hs1 Nf1 s1 (grows_refl s1)) as (V & G).
  assert (Hand : at_hand s y -> at_hand s1 y).
  { intros Hh v Hv. apply mem_remembered. rewrite M1. apply mem_remembered. apply Hh. apply (settled_value _ _ _ _ St). exact Hv. }
  assert (M3 : mem (fst (exec pr a (st_root t) s1)) y = mem s y).
  { rewrite <- M1. destruct (uses_dec (t0 :: ts') y) as [U|U].
    - apply grows_hand; auto.
    - destruct (uses_tree _ _ _ L U) as (us & D & N). exact (proj1 (exec_mem pr a y) 5 us _ D N s1). }
  rewrite (new_value_tree pr a (has_store s) _ _ _ L).
  assert (Lk : pev pr a (looked s1) (st_root t) = pev pr a (looked s) (st_root t)).
  { apply (tree_ext pr a _ _ _ _ L). intros z q _. exact (looked_settled s s1 z q Hs Nf St Nf1). }
  rewrite <- Lk, <- V. unfold tree_execute. destruct (exec pr a (st_root t) s1) as [s3 r3] eqn:Ee. cbn [fst snd] in *.
  destruct r3 as [v|e|p]; cbn [then_do].
  2,3: intros E; apply pair_equal_spec in E as [E _]; apply pair_equal_spec in E as [_ <-]; rewrite M3; destruct (st_var t); reflexivity.
  destruct (st_var t) as [z|]; [|intros E; apply pair_equal_spec in E as [E _]; apply pair_equal_spec in E as [_ <-]; rewrite M3; reflexivity].
  assert (Sv : has_store s = match e_vars s3 with Some _ => true | None => false end).
  { destruct G as (G & _). rewrite (proj1 St) in G. unfold has_store. destruct (e_vars s), (e_vars s3); try contradiction; reflexivity. }
  rewrite Sv. unfold mem in M3. destruct (e_vars s3) as [m|] eqn:E3.
  2:{ intros E; apply pair_equal_spec in E as [E _]; apply pair_equal_spec in E as [_ <-]. unfold mem. rewrite E3. exact M3. }
  destruct (vs_update m (pd_value z) v id (e_db s3)) as [[m' odb'] r4] eqn:U.
  assert (Em : m' = vs_insert m (pd_value z) v).
  { unfold vs_update in U. cbv zeta in U. destruct (match e_db s3 with Some _ => _ | None => _ end) as [db0 r0]. apply pair_equal_spec in U as [U _]. apply pair_equal_spec in U as [U _]. auto. }
  intros E; apply pair_equal_spec in E as [E _]. apply pair_equal_spec in E as [_ <-]. unfold mem at 1. cbn [e_vars]. rewrite Em, vs_get_insert.
  unfold updated. destruct (str_eqb y (pd_value z)); [reflexivity|exact M3].
Qed.

Lemma recording_value se y v : env_ok (s_env se) -> var_value (after_recording se) y v -> var_value (s_env se) y v.
Proof.
  intros Hs (m & E & H). destruct (recording_ok se Hs) as (_ & V & _ & K). rewrite V in E. exists m. split; [exact E|].
  destruct H as [H|(N & sd & Es & O)]; [left; exact H|right]. split; [exact N|]. destruct (K y v ltac:(exists sd; auto)) as (sd' & Es' & O'). eauto.
Qed.
Lemma recording_hand se y : env_ok (s_env se) -> at_hand (s_env se) y -> at_hand (after_recording se) y.
Proof.
  intros Hs H v Hv. destruct (recording_ok se Hs) as (_ & V & _). apply (remembered_recording se y v V). apply H. exact (recording_value se y v Hs Hv).
Qed.
Lemma looked_hand s y p : env_ok s -> no_faults s -> at_hand s y -> looked s y p = memlook (has_store s) (mem s) y p.
Proof.
  intros Hs Nf H. unfold memlook, has_store. destruct (looked_cases s y p Hs Nf) as [(A & ->)|[(A & v & B & ->)|(A & B & ->)]].
  - rewrite A. reflexivity.
  - destruct (e_vars s) eqn:E; [|contradiction]. apply H, mem_remembered in B. rewrite B. reflexivity.
  - destruct (e_vars s) eqn:E; [|contradiction]. destruct (mem s y) as [w|] eqn:Ew; [|reflexivity]. apply mem_remembered, remembered_value in Ew. destruct (B w Ew).
Qed.
Lemma has_store_iff s s' : (e_vars s = None <-> e_vars s' = None) -> has_store s = has_store s'.
Proof. unfold has_store. destruct (e_vars s), (e_vars s'); auto; intros [A B]; [discriminate (B eq_refl)|discriminate (A eq_refl)]. Qed.
Lemma value_once s y v w : env_ok s -> remembered s y v -> var_value s y w -> v = w.
Proof. intros Hs (m & E & H) (m' & E' & H'). assert (m' = m) as -> by congruence. destruct H' as [H'|(H' & _)]; congruence. Qed.

(** An expression line in a working session: its reply and what is in memory afterwards. *)
Lemma line_mem pr ord x input se se' r ts : working_session se -> is_expression (a_radix (s_args se)) input ts ->
  (forall y, uses ts y -> at_hand (s_env se) y) -> calculate pr ord x input se = (se', r) ->
  let st := has_store (s_env se) in
  s_args se' = s_args se /\ has_store (s_env se') = st /\
  r = reply_of pr (s_args se) st (mem (s_env se)) ts /\
  (forall y, mem (s_env se') y = mem_after pr (s_args se) st (mem (s_env se)) ts y) /\
  (forall y, at_hand (s_env se) y -> at_hand (s_env se') y).
Proof.
  intros W T Hu C st. pose proof W as (A & B & R & N & H). destruct (recording_ok se B) as (Rok & Rv & _).
  assert (Es : has_store (after_recording se) = st) by (unfold st, has_store; rewrite Rv; reflexivity).
  assert (Em : forall y, mem (after_recording se) y = mem (s_env se) y) by (intros y; unfold mem; rewrite Rv; reflexivity).
  pose proof (recording_calm se W) as Nf.
  assert (Lk : forall y p, uses ts y -> looked (after_recording se) y p = memlook st (mem (s_env se)) y p).
  { intros y p U. rewrite (looked_hand _ _ _ Rok Nf (recording_hand se y B (Hu y U))), Es. unfold memlook. rewrite Em. reflexivity. }
  destruct (calculate_expression _ _ _ _ _ _ _ _ A B T C) as (Ea & Bok & Cs).
  split; [exact Ea|]. split; [|split; [|split]].
  - destruct Cs as [(-> & _)|(_ & _ & [((S & _) & _)|(y & n & v & _ & _ & _ & Nn & (_ & (m & E & _) & _) & _)])]; [exact Es| |].
    + rewrite <- Es. symmetry. apply has_store_iff, S.
    + unfold st, has_store. rewrite E. destruct (e_vars (s_env se)); [reflexivity|contradiction].
  - rewrite (working_pure _ _ _ _ _ _ _ _ W T C). apply reply_uses. exact Lk.
  - intros y. destruct (calculate_cases _ _ _ _ _ _ _ C) as [(_ & _ & h & h' & db' & o & Eh & _ & F & D)|(id & Bd & Hid & Hi)].
    + exfalso. pose proof (calculate_calm _ _ _ _ _ _ _ A B R N (working_inputs se W) C) as (Nr & _).
      destruct D as [(e & _ & ->)|(p & -> & _)]; [exact (Nr e eq_refl)|]. apply (recording_no_panic se h p W Eh). rewrite F. reflexivity.
    + assert (K : accepts id (e_db (after_recording se))).
      { unfold after_recording in *. destruct (s_inputs se) as [h|].
        - destruct Hi as (h' & db' & _ & F). rewrite F. cbn [fst snd e_db]. unfold input_finished in F.
          destruct (current_line h) as [line|e|p]; [|apply pair_equal_spec in F as [_ F]; discriminate F..].
          destruct (e_db (s_env se)) as [sd|] eqn:Ed.
          + destruct (add_to_input_history line sd) as [sd' o] eqn:Ad. destruct (add_calm _ _ _ _ (N sd Ed) (R sd Ed) Ad) as (i & -> & Ac).
            apply pair_equal_spec in F as [F F2]. apply pair_equal_spec in F as [_ <-]. injection F2 as <-. exact Ac.
          + apply pair_equal_spec in F as [F F2]. apply pair_equal_spec in F as [_ <-]. injection F2 as <-. exact Logic.I.
        - destruct Hi as (_ & ->). rewrite H. exact Logic.I. }
      rewrite (body_mem _ _ _ _ _ _ _ _ _ _ _ y A Rok K T Bd ltac:(intros U; apply recording_hand; auto)), Es.
      unfold mem_after. rewrite (new_value_uses _ _ _ _ _ _ Lk). unfold updated. destruct (new_value _ _ _ _ _) as [[z v]|]; [destruct (str_eqb y z); [reflexivity|apply Em]|apply Em].
  - intros y Hy. pose proof (recording_hand se y B Hy) as Hr. destruct Cs as [(-> & _)|(_ & _ & [((S1 & S2 & S3 & S4 & _) & _)|(x0 & n & v & _ & _ & _ & _ & (_ & A2 & A3 & A4 & _) & _)])].
    + exact Hr.
    + intros w Hw. apply S4, Hr, S3. exact Hw.
    + intros w Hw. destruct (str_eqb y x0) eqn:E.
      * apply str_eqb_spec in E. subst x0. rewrite <- (value_once _ _ _ _ Bok A2 Hw). exact A2.
      * assert (y <> x0) by (intros ->; rewrite (proj2 (str_eqb_spec x0 x0) eq_refl) in E; discriminate). apply A4; [assumption|]. apply Hr. apply A3; assumption.
Qed.

(** Typing a line into a session that waits for one. *)
Lemma typed_inputs h line : history_of_session h -> ih_current h = [Some []] -> ih_index h = 0 ->
  history_of_session (mkIH (ih_internal h) (ih_db h) [Some line] 0 (ih_exhausted h)).
Proof.
  intros Hh Hc Hi. induction line as [|c line IH] using rev_ind; [destruct h; cbn in *; subst; exact Hh|].
  assert (E : @insert_char runtime_error (mkIH (ih_internal h) (ih_db h) [Some line] 0 (ih_exhausted h)) (List.length line) c = Ok (mkIH (ih_internal h) (ih_db h) [Some (line ++ [c])] 0 (ih_exhausted h))).
  { unfold insert_char, edit_current, ensure_populated. cbn. unfold string_insert. rewrite Nat.leb_refl. cbn [bind]. rewrite firstn_all, skipn_all. reflexivity. }
  refine (eq_ind_r history_of_session _ (insert_step _ _ _ _ E)). apply history_step; [exact IH|]. intros l El. cbn in El. injection El as <-. cbn [in_line]. apply le_n.
Qed.
Lemma type_in_env line se : s_env (type_in line se) = s_env se /\ s_args (type_in line se) = s_args se.
Proof. unfold type_in. destruct (s_inputs se); auto. Qed.
Lemma type_in_works line se : working_session se -> no_line_begun se -> working_session (type_in line se).
Proof.
  intros (A & B & C & D & E) R. unfold no_line_begun in R. unfold type_in. destruct (s_inputs se) as [h|] eqn:Eh.
  - split; [exact A|]. split; [exact B|]. split; [exact C|]. split; [exact D|]. cbn [s_inputs]. destruct R. apply typed_inputs; assumption.
  - split; [exact A|]. split; [exact B|]. split; [exact C|]. split; [exact D|]. rewrite Eh. exact E.
Qed.
Lemma again_at_rest pr ord x line se se' r : calculate pr ord x line (type_in line se) = (se', r) -> no_line_begun se'.
Proof.
  intros C. unfold no_line_begun.
  assert (K : forall h db h' db' o, input_finished (mkIH (ih_internal h) (ih_db h) [Some line] 0 (ih_exhausted h)) db = (h', db', o) -> ih_current h' = [Some []] /\ ih_index h' = 0).
  { intros h db h' db' o F. unfold input_finished in F. cbn in F. destruct db as [sd|].
    - destruct (add_to_input_history line sd) as [sd' [i|e|p]]; apply pair_equal_spec in F as [F _]; apply pair_equal_spec in F as [<- _]; split; reflexivity.
    - apply pair_equal_spec in F as [F _]; apply pair_equal_spec in F as [<- _]; split; reflexivity. }
  unfold type_in in C. destruct (s_inputs se) as [h|] eqn:Eh.
  - destruct (calculate_cases _ _ _ _ _ _ _ C) as [(_ & _ & h0 & h' & db' & o & E0 & -> & F & _)|(id & _ & _ & X)]; cbn [s_inputs s_env] in *.
    + injection E0 as <-. eapply K, F.
    + destruct X as (h' & db' & -> & F). eapply K, F.
  - destruct (calculate_cases _ _ _ _ _ _ _ C) as [(_ & _ & h0 & _ & _ & _ & E0 & _)|(id & _ & _ & X)]; [congruence|].
    rewrite Eh in X. destruct X as (-> & _). exact Logic.I.
Qed.

(** Lines one after the other, as functions of what is in memory. *)
Section Lines.
  Context (pr : profile) (a : args) (st : bool).
  Notation memory := (str -> option Q).
  Fixpoint outcomes (M : memory) (L : list (str * list ptoken)) : list (str * outcome failure str) :=
    match L with [] => [] | (line, ts) :: rest => (line, reply_of pr a st M ts) :: outcomes (mem_after pr a st M ts) rest end.
  Fixpoint memory_after (M : memory) (L : list (str * list ptoken)) : memory :=
    match L with [] => M | (_, ts) :: rest => memory_after (mem_after pr a st M ts) rest end.
  Definition same_memory (M M' : memory) : Prop := forall y, M y = M' y.

  Lemma memlook_ext M M' y p : M y = M' y -> memlook st M y p = memlook st M' y p.
  Proof. unfold memlook. intros ->. reflexivity. Qed.
  Lemma reply_of_ext M M' ts : (forall y, uses ts y -> M y = M' y) -> reply_of pr a st M ts = reply_of pr a st M' ts.
  Proof. intros H. apply reply_uses. intros y p U. apply memlook_ext, H, U. Qed.
  Lemma value_ext M M' ts : (forall y, uses ts y -> M y = M' y) -> new_value pr a st (memlook st M) ts = new_value pr a st (memlook st M') ts.
  Proof. intros H. apply new_value_uses. intros y p U. apply memlook_ext, H, U. Qed.
  Lemma mem_after_ext M M' ts : same_memory M M' -> same_memory (mem_after pr a st M ts) (mem_after pr a st M' ts).
  Proof.
    intros H y. unfold mem_after, updated. rewrite (value_ext M M' ts (fun y _ => H y)). destruct (new_value _ _ _ _ _) as [[x v]|]; [destruct (str_eqb y x); [reflexivity|]|]; apply H.
  Qed.
  Lemma outcomes_ext L : forall M M', same_memory M M' -> outcomes M L = outcomes M' L.
  Proof.
    induction L as [|[line ts] L IH]; intros M M' H; [reflexivity|]. cbn [outcomes]. rewrite (reply_of_ext M M' ts (fun y _ => H y)). f_equal. apply IH, mem_after_ext, H.
  Qed.
  Lemma memory_after_ext L : forall M M', same_memory M M' -> same_memory (memory_after M L) (memory_after M' L).
  Proof. induction L as [|[line ts] L IH]; intros M M' H; [exact H|]. cbn [memory_after]. apply IH, mem_after_ext, H. Qed.

  Lemma uses_mentions ts y : uses ts y -> mentions ts y.
  Proof.
    unfold uses. destruct ts as [|t0 [|e rest]]; auto. destruct (pd_value t0); auto. destruct (pd_value e); auto.
    intros (p & H). exists p. right. right. exact H.
  Qed.
  Lemma new_value_target lk ts x v : new_value pr a st lk ts = Some (x, v) -> assigns_to ts x.
  Proof.
    intros H. destruct (syntax_tree_new ts) as [t|e|p] eqn:P; [|unfold new_value in H; rewrite P in H; discriminate..].
    apply parse_iff in P. rewrite (new_value_tree _ _ _ _ _ _ P) in H. destruct P as [ts n D|z p q ts n D]; cbn [st_var st_root pd_value] in H; [discriminate|].
    destruct (pev pr a lk n); try discriminate. destruct st; [|discriminate]. injection H as -> _. exists p, q, ts. reflexivity.
  Qed.
  Lemma unrelated_keeps M ts1 ts2 y : unrelated ts1 ts2 -> mentions ts2 y -> mem_after pr a st M ts1 y = M y.
  Proof.
    intros [H _] Hm. unfold mem_after, updated. destruct (new_value pr a st (memlook st M) ts1) as [[x v]|] eqn:E; [|reflexivity].
    destruct (str_eqb y x) eqn:Q; [|reflexivity]. apply str_eqb_spec in Q. subst x. destruct (H y (new_value_target _ _ _ _ E) Hm).
  Qed.
  Lemma unrelated_sym ts1 ts2 : unrelated ts1 ts2 -> unrelated ts2 ts1.
  Proof. intros [A B]. split; assumption. Qed.
  Lemma assigns_mentions ts y : assigns_to ts y -> mentions ts y.
  Proof. intros (p & q & rest & ->). exists p. left. reflexivity. Qed.
  Lemma swap_memory M ts1 ts2 : unrelated ts1 ts2 -> same_memory (mem_after pr a st (mem_after pr a st M ts1) ts2) (mem_after pr a st (mem_after pr a st M ts2) ts1).
  Proof.
    intros U y. pose proof (unrelated_sym _ _ U) as U'.
    assert (V2 : new_value pr a st (memlook st (mem_after pr a st M ts1)) ts2 = new_value pr a st (memlook st M) ts2)
      by (apply value_ext; intros z Hz; apply (unrelated_keeps M ts1 ts2 z U), uses_mentions, Hz).
    assert (V1 : new_value pr a st (memlook st (mem_after pr a st M ts2)) ts1 = new_value pr a st (memlook st M) ts1)
      by (apply value_ext; intros z Hz; apply (unrelated_keeps M ts2 ts1 z U'), uses_mentions, Hz).
    unfold mem_after at 1. rewrite V2. unfold mem_after at 2. rewrite V1. unfold mem_after, updated.
    destruct (new_value pr a st (memlook st M) ts1) as [[x1 v1]|] eqn:E1, (new_value pr a st (memlook st M) ts2) as [[x2 v2]|] eqn:E2; try reflexivity.
    destruct (str_eqb y x2) eqn:Q2, (str_eqb y x1) eqn:Q1; try reflexivity. apply str_eqb_spec in Q1, Q2. subst x1 x2.
    destruct (proj1 U y (new_value_target _ _ _ _ E1)). apply assigns_mentions. exact (new_value_target _ _ _ _ E2).
  Qed.

  Definition apart (p q : str * list ptoken) : Prop := unrelated (snd p) (snd q).
  Lemma apart_perm L L' : Permutation L L' -> ForallOrdPairs apart L -> ForallOrdPairs apart L'.
  Proof.
    induction 1 as [|x l l' P IH|x y l|l l' l'' P1 IH1 P2 IH2]; intros H; auto.
    - inversion H as [|? ? A B]; subst. constructor; [|apply IH, B]. rewrite Forall_forall in *. intros z Hz. apply A. apply (Permutation_in _ (Permutation_sym P) Hz).
    - inversion H as [|? ? A B]; subst. inversion B as [|? ? A' B']; subst. inversion A as [|? ? X A2]; subst. constructor; [constructor; [apply unrelated_sym; exact X|exact A']|constructor; assumption].
  Qed.
  Lemma outcomes_perm L L' : Permutation L L' -> forall M, ForallOrdPairs apart L ->
    Permutation (outcomes M L) (outcomes M L') /\ same_memory (memory_after M L) (memory_after M L').
  Proof.
    induction 1 as [|[line ts] l l' P IH|[line1 ts1] [line2 ts2] l|l l' l'' P1 IH1 P2 IH2]; intros M H.
    - split; [constructor|intros y; reflexivity].
    - inversion H as [|? ? A B]; subst. destruct (IH (mem_after pr a st M ts) B) as (X & Y). cbn [outcomes memory_after]. split; [constructor; exact X|exact Y].
    - inversion H as [|? ? A B]; subst. inversion A as [|? ? X A2]; subst. unfold apart in X. cbn [snd] in X. cbn [outcomes memory_after].
      pose proof (swap_memory M ts2 ts1 X) as Sw. split; [|apply memory_after_ext; exact Sw].
      rewrite (outcomes_ext l _ _ Sw).
      rewrite (reply_of_ext (mem_after pr a st M ts2) M ts1) by (intros z Hz; apply (unrelated_keeps M ts2 ts1 z X), uses_mentions, Hz).
      rewrite (reply_of_ext (mem_after pr a st M ts1) M ts2) by (intros z Hz; apply (unrelated_keeps M ts1 ts2 z (unrelated_sym _ _ X)), uses_mentions, Hz).
      apply perm_swap.
    - destruct (IH1 M H) as (X1 & Y1), (IH2 M (apart_perm _ _ P1 H)) as (X2 & Y2). split; [eapply perm_trans; eassumption|intros y; rewrite Y1; apply Y2].
  Qed.
End Lines.

(** Dialogues. *)
Definition told (o : str * outcome failure str) (q : str * str) : Prop := fst q = fst o /\ reply_text (snd o) (snd q).
Lemma told_once o q q' : told o q -> told o q' -> q = q'.
Proof.
  destruct o as [l r], q as [l1 t1], q' as [l2 t2]. intros [A B] [A' B']. cbn in *. subst. f_equal. inversion B; subst; inversion B'; subst; reflexivity.
Qed.
Definition fine (radix : N) (s : env) (p : str * list ptoken) : Prop := is_expression radix (fst p) (snd p) /\ forall y, uses (snd p) y -> at_hand s y.
Lemma fine_step pr ord line ts se se' r : (iterates ord) -> working_session se -> no_line_begun se -> fine (a_radix (s_args se)) (s_env se) (line, ts) ->
  calculate pr ord the_executor line (type_in line se) = (se', r) ->
  let st := has_store (s_env se) in
  working_session se' /\ no_line_begun se' /\ s_args se' = s_args se /\ has_store (s_env se') = st /\
  r = reply_of pr (s_args se) st (mem (s_env se)) ts /\
  (forall y, mem (s_env se') y = mem_after pr (s_args se) st (mem (s_env se)) ts y) /\ (forall e, r <> Err (RuntimeError e)) /\
  (forall p, fine (a_radix (s_args se)) (s_env se) p -> fine (a_radix (s_args se')) (s_env se') p).
Proof.
  intros Ho W R (T & Hu) C st. pose proof (type_in_works line se W R) as W'. destruct (type_in_env line se) as (E1 & E2).
  destruct (working_calculate _ _ _ _ _ _ _ W' Ho C) as (W2 & Nr). split; [exact W2|]. split; [exact (again_at_rest _ _ _ _ _ _ _ C)|].
  rewrite <- E2 in T. rewrite <- E1 in Hu. cbn [fst snd] in *.
  destruct (line_mem _ _ _ _ _ _ _ _ W' T Hu C) as (A1 & A2 & A3 & A4 & A5). rewrite E1, E2 in *. repeat (split; [assumption|]).
  intros p (P1 & P2). split; [rewrite A1; exact P1|]. intros y Hy. apply A5, P2, Hy.
Qed.
Lemma dialogue_outcomes pr ord n se lines se' replies : (forall n, iterates (ord n)) -> dialogue pr ord the_executor n se lines se' replies ->
  forall L, lines = map fst L -> working_session se -> no_line_begun se -> Forall (fine (a_radix (s_args se)) (s_env se)) L ->
  Forall2 told (outcomes pr (s_args se) (has_store (s_env se)) (mem (s_env se)) L) replies /\
  same_memory (mem (s_env se')) (memory_after pr (s_args se) (has_store (s_env se)) (mem (s_env se)) L).
Proof.
  intros Ho D. induction D as [n se|n se line lines se1 r text se' rest C Rt D IH]; intros L EL W R F.
  - destruct L; [|discriminate]. split; [constructor|intros y; reflexivity].
  - destruct L as [|[l0 ts] L]; [discriminate|]. injection EL as -> ->. apply Forall_cons_iff in F as [F0 F]. cbn [fst] in C.
    destruct (fine_step pr (ord n) l0 ts se se1 r (Ho n) W R F0 C) as (W1 & R1 & E1 & E2 & E3 & E4 & _ & E6).
    destruct (IH L eq_refl W1 R1 (Forall_impl _ E6 F)) as (X & Y). rewrite E1, E2 in *. cbn [outcomes memory_after]. split.
    + constructor; [split; [reflexivity|]; cbn [snd]; rewrite <- E3; exact Rt|]. rewrite <- (outcomes_ext _ _ _ _ _ _ E4). exact X.
    + intros y. rewrite Y. apply memory_after_ext. exact E4.
Qed.
Lemma outcomes_dialogue pr ord L : (forall n, iterates (ord n)) -> forall n se, working_session se -> no_line_begun se -> Forall (fine (a_radix (s_args se)) (s_env se)) L ->
  (forall o, In o (outcomes pr (s_args se) (has_store (s_env se)) (mem (s_env se)) L) -> exists q, told o q) ->
  exists se' replies, dialogue pr ord the_executor n se (map fst L) se' replies.
Proof.
  intros Ho. induction L as [|[line ts] L IH]; intros n se W R F Hp; [do 2 eexists; constructor|].
  apply Forall_cons_iff in F as [F0 F]. cbn [map fst]. destruct (calculate pr (ord n) the_executor line (type_in line se)) as [se1 r] eqn:C.
  destruct (fine_step pr (ord n) line ts se se1 r (Ho n) W R F0 C) as (W1 & R1 & E1 & E2 & E3 & E4 & _ & E6). cbn [outcomes] in Hp.
  destruct (Hp _ (or_introl eq_refl)) as ([l0 text] & Q & Rt). cbn [fst snd] in Q, Rt. rewrite <- E3 in Rt.
  destruct (IH (S n) se1 W1 R1 (Forall_impl _ E6 F)) as (se' & rest & D).
  { intros o Hin. rewrite E1, E2, (outcomes_ext _ _ _ _ _ _ E4) in Hin. exact (Hp o (or_intror Hin)). }
  exists se', ((line, text) :: rest). econstructor; eassumption.
Qed.

Lemma lines_any_order pr ord1 ord2 n1 n2 se lines1 lines2 se1 replies1 : (forall n, iterates (ord1 n)) -> (forall n, iterates (ord2 n)) ->
  working_session se -> no_line_begun se ->
  (forall line, In line lines1 -> exists ts, is_expression (a_radix (s_args se)) line ts /\ forall y, uses ts y -> at_hand (s_env se) y) ->
  ForallOrdPairs (unrelated_lines (a_radix (s_args se))) lines1 -> Permutation lines1 lines2 ->
  dialogue pr ord1 the_executor n1 se lines1 se1 replies1 ->
  exists se2 replies2, dialogue pr ord2 the_executor n2 se lines2 se2 replies2 /\ Permutation replies1 replies2 /\
    s_args se1 = s_args se2 /\ forall y v, remembered (s_env se1) y v <-> remembered (s_env se2) y v.
Proof.
  intros Ho1 Ho2 W R F U P D.
  assert (HL : exists L, lines1 = map fst L /\ Forall (fine (a_radix (s_args se)) (s_env se)) L).
  { clear -F. induction lines1 as [|line lines IH]; [exists []; split; [reflexivity|constructor]|].
    destruct (F line (or_introl eq_refl)) as (ts & T & Hu). destruct (IH (fun l Hl => F l (or_intror Hl))) as (L & -> & FL).
    exists ((line, ts) :: L). split; [reflexivity|]. constructor; [split; assumption|exact FL]. }
  destruct HL as (L1 & -> & F1). destruct (Permutation_map_inv _ _ (Permutation_sym P)) as (L2 & -> & P2). 
  assert (F2 : Forall (fine (a_radix (s_args se)) (s_env se)) L2).
  { rewrite Forall_forall in *. intros z Hz. apply F1. apply (Permutation_in _ (Permutation_sym P2) Hz). }
  assert (Ap : ForallOrdPairs apart L1).
  { clear -U F1. induction L1 as [|p L IH]; [constructor|]. cbn [map] in U. inversion U as [|? ? A B]; subst. apply Forall_cons_iff in F1 as [Fp F1]. constructor; [|apply IH; assumption].
    rewrite Forall_forall in *. intros q Hq. apply (A (fst q)); [apply in_map; exact Hq|exact (proj1 Fp)|exact (proj1 (F1 q Hq))]. }
  destruct (dialogue_outcomes _ _ _ _ _ _ _ Ho1 D L1 eq_refl W R F1) as (X1 & Y1).
  destruct (outcomes_perm pr (s_args se) (has_store (s_env se)) L1 L2 P2 (mem (s_env se)) Ap) as (Po & Pm).
  destruct (Permutation_Forall2 Po X1) as (replies & Pr & X2).
  destruct (outcomes_dialogue pr ord2 L2 Ho2 n2 se W R F2) as (se2 & replies2 & D2).
  { intros o Hin. clear -X2 Hin. induction X2 as [|o1 q1 os qs T _ IH]; [destruct Hin|]. destruct Hin as [<-|Hin]; [eauto|exact (IH Hin)]. }
  destruct (dialogue_outcomes _ _ _ _ _ _ _ Ho2 D2 L2 eq_refl W R F2) as (X3 & Y3).
  exists se2, replies2. split; [exact D2|]. split; [|split].
  - replace replies2 with replies; [exact Pr|]. clear -X2 X3. revert replies2 X3. induction X2 as [|o q os qs T _ IH]; intros rs X; inversion X; subst; [reflexivity|].
    f_equal; [eapply told_once; eassumption|apply IH; assumption].
  - assert (K : forall ord n se' L replies0, (forall n, iterates (ord n)) -> working_session se -> dialogue pr ord the_executor n se (map fst L) se' replies0 -> Forall (fine (a_radix (s_args se)) (s_env se)) L -> s_args se' = s_args se).
    { clear -R. intros ord n se' L replies0 Ho W D F. remember (map fst L) as lines eqn:EL. revert L EL F W R.
      induction D as [n se|n se line lines se1 r text se' rest C Rt D IH]; intros L EL F W R; [reflexivity|].
      destruct L as [|[l0 ts] L]; [discriminate|]. injection EL as -> ->. apply Forall_cons_iff in F as [F0 F]. cbn [fst] in C.
      destruct (fine_step pr (ord n) l0 ts se se1 r (Ho n) W R F0 C) as (W1 & R1 & E1 & _ & _ & _ & _ & E6).
      rewrite (IH L eq_refl (Forall_impl _ E6 F) W1 R1). exact E1. }
    rewrite (K _ _ _ _ _ Ho1 W D F1), (K _ _ _ _ _ Ho2 W D2 F2). reflexivity.
  - intros y v. rewrite !mem_remembered, Y1, Y3, Pm. tauto.
Qed.
