(** ProofsCalc6.v -- submitting a whole line: recording, then interpreting. *)
From Verif Require Import Base Position Num TokenTypes Errors Token SavedData Variables InputHistory
  SyntaxTree Commands Calculate SpecGrammar SpecEval SpecCalc ProofsNum ProofsEval ProofsEval2 ProofsEval3 ProofsParse
  ProofsCalc ProofsCalc2 ProofsCalc3 ProofsCalc4 ProofsCalc5.
From Coq Require Import String Permutation Lia.
Local Open Scope nat_scope.
Local Open Scope list_scope.

(** ** The command table *)
Lemma assoc_in {A} k (l : list (str * A)) v : assoc k l = Some v -> In (k, v) l.
Proof.
  induction l as [|[k' v'] l IH]; [discriminate|]. cbn [assoc]. destruct (str_eqb k k') eqn:E.
  - intros H. assert (v' = v) by congruence. subst v'. apply str_eqb_spec in E as ->. left. reflexivity.
  - intros H. right. auto.
Qed.
Definition resolve_in (name : str) : option command := assoc (resolve_alias the_executor name) (x_commands the_executor).
Lemma resolve_names c name : In name (command_name c :: command_aliases c) -> resolve_in name = Some c.
Proof. destruct c; cbn [command_name command_aliases In]; intuition; subst name; vm_compute; reflexivity. Qed.
Lemma resolve_only name c : resolve_in name = Some c -> In name (command_name c :: command_aliases c).
Proof.
  unfold resolve_in, resolve_alias. destruct (assoc name (x_aliases the_executor)) as [n|] eqn:A; intros R.
  - apply assoc_in in A. cbv in A. repeat destruct A as [A|A]; [..|destruct A]; apply pair_equal_spec in A as [<- <-]; vm_compute in R; injection R as <-; vm_compute; tauto.
  - apply assoc_in in R. cbv in R. repeat destruct R as [R|R]; [..|destruct R]; apply pair_equal_spec in R as [<- <-]; vm_compute; tauto.
Qed.
Lemma resolves_iff name c : resolves the_executor name c <-> In (pd_value name) (command_name c :: command_aliases c).
Proof. split; [apply resolve_only|apply resolve_names]. Qed.
Lemma resolves_plain name c : command_aliases c = [] -> (resolves the_executor name c <-> pd_value name = command_name c).
Proof. intros A. rewrite resolves_iff, A. cbn [In]. intuition. Qed.

(** ** Recording *)
Lemma recording_ok se : env_ok (s_env se) ->
  env_ok (after_recording se) /\ e_vars (after_recording se) = e_vars (s_env se) /\
  (e_db (s_env se) = None <-> e_db (after_recording se) = None) /\
  (forall y v, stored (after_recording se) y v -> stored (s_env se) y v).
Proof.
  intros Hs. assert (K : forall s, s = s_env se -> env_ok s /\ e_vars s = e_vars (s_env se) /\ (e_db (s_env se) = None <-> e_db s = None) /\
    (forall y v, stored s y v -> stored (s_env se) y v)) by (intros s ->; split; [exact Hs|split; [reflexivity|split; [tauto|auto]]]).
  destruct Hs as (A & B). unfold after_recording. destruct (s_inputs se) as [h|]; [|apply K; reflexivity].
  unfold input_finished. destruct (current_line h) as [line|e|p]; cbn [fst snd]; [|apply K; destruct (s_env se); reflexivity..].
  destruct (e_db (s_env se)) as [sd|] eqn:Es; cbn [fst snd]; [|apply K; destruct (s_env se) as [m d]; cbn in *; congruence].
  destruct (add_to_input_history line sd) as [sd' o] eqn:Ea.
  assert (D : drops (sd_db sd) (sd_db sd')).
  { destruct (sd_call_cases _ _ _ _ Ea) as (P & F & C). destruct C as [(u & -> & M)|[(D & _)|(D & _)]]; try (rewrite D; apply drops_refl; reflexivity).
    eapply dropping_add. exact M. }
  assert (X : e_db (mkEnv (e_vars (s_env se)) (snd (fst (match o with
     | Ok id => (mkIH (ih_internal h ++ [line]) (ih_db h) [Some []] 0 (ih_exhausted h), Some sd', Ok (Some id))
     | Err e => (mkIH (ih_internal h ++ [line]) (ih_db h) [Some []] 0 (ih_exhausted h), Some sd', Err e)
     | Panic p => (mkIH (ih_internal h ++ [line]) (ih_db h) [Some []] 0 (ih_exhausted h), Some sd', Panic p) end)))) = Some sd') by (destruct o; reflexivity).
  unfold stored, env_ok. cbn [e_vars] in *. rewrite X. split; [|split; [reflexivity|split; [split; discriminate|]]].
  - split; [exact A|]. intros sd0 [= <-]. eapply drops_ok; [exact D|]. apply B. reflexivity.
  - intros y v (sd0 & [= <-] & H). exists sd. split; [exact Es|]. eapply drops_disk; eauto.
Qed.

(** what [calculate] does: record, then interpret unless recording failed *)
Lemma calculate_cases pr ord x input se se' r : calculate pr ord x input se = (se', r) ->
  (s_args se' = s_args se /\ s_env se' = after_recording se /\
     exists h h' db' o, s_inputs se = Some h /\ s_inputs se' = Some h' /\ input_finished h (e_db (s_env se)) = (h', db', o) /\
       ((exists e, o = Err e /\ r = Err (RuntimeError e)) \/ exists p, o = Panic p /\ r = Panic p)) \/
  (exists id, calculate_body pr ord x input id (s_args se) (after_recording se) = (s_args se', s_env se', r) /\
     (e_db (s_env se) = None -> id = None) /\
     match s_inputs se with
     | None => s_inputs se' = None /\ id = None
     | Some h => exists h' db', s_inputs se' = Some h' /\ input_finished h (e_db (s_env se)) = (h', db', Ok id)
     end).
Proof.
  unfold calculate, after_recording. destruct (s_inputs se) as [h|].
  2:{ destruct (calculate_body _ _ _ _ _ _ _) as [[a' s'] r'] eqn:B. intros E. apply pair_equal_spec in E as [<- <-]. right. exists None. cbn [s_args s_env s_inputs]. auto. }
  destruct (input_finished h (e_db (s_env se))) as [[h' db'] [id|e|p]] eqn:F; cbn [fst snd].
  - destruct (calculate_body _ _ _ _ _ _ _) as [[a' s'] r'] eqn:B. intros E. apply pair_equal_spec in E as [<- <-]. right. exists id. cbn [s_args s_env s_inputs].
    split; [exact B|]. split; [|exists h', db'; auto].
    intros N. rewrite N in F. unfold input_finished in F. destruct (current_line h) as [line|e|p]; [|discriminate F..].
    apply pair_equal_spec in F as [_ F]. congruence.
  - intros E. apply pair_equal_spec in E as [<- <-]. left. cbn [s_args s_env s_inputs]. split; [reflexivity|]. split; [reflexivity|].
    exists h, h', db', (Err e). split; [reflexivity|]. split; [reflexivity|]. split; [exact F|]. left. eauto.
  - intros E. apply pair_equal_spec in E as [<- <-]. left. cbn [s_args s_env s_inputs]. split; [reflexivity|]. split; [reflexivity|].
    exists h, h', db', (Panic p). split; [reflexivity|]. split; [reflexivity|]. split; [exact F|]. right. eauto.
Qed.

(** unreadable lines change nothing *)
Lemma body_unreadable pr ord x input id a s a' s' r : (forall t, tokenize input (a_radix a) <> Ok t) ->
  calculate_body pr ord x input id a s = (a', s', r) -> a' = a /\ s' = s /\ (forall text, r <> Ok text).
Proof.
  intros N. unfold calculate_body. destruct (tokenize input (a_radix a)) as [t|e|p]; [destruct (N t eq_refl)| |];
    intros E; apply pair_equal_spec in E as [E <-]; apply pair_equal_spec in E as [<- <-]; repeat split; discriminate.
Qed.

(** ** Expression lines *)
Lemma calculate_expression pr ord x input se se' r ts : valid_settings (s_args se) -> env_ok (s_env se) ->
  is_expression (a_radix (s_args se)) input ts -> calculate pr ord x input se = (se', r) ->
  s_args se' = s_args se /\ env_ok (s_env se') /\
  ((s_env se' = after_recording se /\ ((exists e, r = Err (RuntimeError e)) \/ exists p, r = Panic p) /\
     exists h, s_inputs se = Some h /\ forall id, snd (input_finished h (e_db (s_env se))) <> Ok id) \/
   (hist_kept (e_db (after_recording se)) (e_db (s_env se')) /\
    line_reply pr (s_args se) (after_recording se) ts r /\
    ((same_variables (after_recording se) (s_env se') /\ (forall text, r = Ok text -> forall y n, ~ assignment ts y n)) \/
     (exists y n v, assignment ts y n /\ line_value pr (s_args se) (after_recording se) n v /\ canon v /\ e_vars (s_env se) <> None /\
        assigned (after_recording se) (s_env se') y v /\
        ((r = @format_result failure (s_args se) v /\ disk_updated (s_env se') y v) \/
         ((exists e, r = Err (RuntimeError e)) /\ disk_kept (after_recording se) (s_env se') y)))))).
Proof.
  intros Ha Hs T C. destruct (recording_ok se Hs) as (Rok & Rv & Rn & _).
  destruct (calculate_cases _ _ _ _ _ _ _ C) as [(A & B & h & h' & db' & o & Eh & _ & F & D)|(id & B & Hid & _)].
  - split; [exact A|]. rewrite B. split; [exact Rok|]. left. split; [reflexivity|]. split.
    + destruct D as [(e & _ & ->)|(p & _ & ->)]; [left|right]; eauto.
    + exists h. split; [exact Eh|]. intros id. rewrite F. cbn [snd]. destruct D as [(e & -> & _)|(p & -> & _)]; discriminate.
  - destruct (body_expression _ _ _ _ _ _ _ _ _ _ _ Ha Rok ltac:(intros N; apply Hid, Rn, N) T B) as (E1 & E2 & E3 & E4 & E5).
    split; [exact E1|]. split; [exact E2|]. right. split; [exact E3|]. split; [exact E4|].
    destruct E5 as [E5|(y & n & v & X1 & X2 & X3 & X4 & X5)]; [left; exact E5|right].
    exists y, n, v. rewrite <- Rv. auto 10.
Qed.

(** ** Command lines *)
Definition runs_command (pr : profile) (ord : list str -> list str) (x : executor) (input : str) (se se' : session) (r : outcome failure str) : Prop :=
  exists id, calculate_body pr ord x input id (s_args se) (after_recording se) = (s_args se', s_env se', r).
Definition not_recorded (se se' : session) (r : outcome failure str) : Prop :=
  s_args se' = s_args se /\ s_env se' = after_recording se /\ ((exists e, r = Err (RuntimeError e)) \/ exists p, r = Panic p) /\
  exists h, s_inputs se = Some h /\ forall id, snd (input_finished h (e_db (s_env se))) <> Ok id.
Lemma calculate_two pr ord x input se se' r : calculate pr ord x input se = (se', r) ->
  not_recorded se se' r \/ runs_command pr ord x input se se' r.
Proof.
  intros C. destruct (calculate_cases _ _ _ _ _ _ _ C) as [(A & B & h & h' & db' & o & Eh & _ & F & D)|(id & B & Hid & _)]; [left|right; exists id; exact B].
  split; [exact A|]. split; [exact B|]. split.
  - destruct D as [(e & _ & ->)|(p & _ & ->)]; [left|right]; eauto.
  - exists h. split; [exact Eh|]. intros id. rewrite F. cbn [snd]. destruct D as [(e & -> & _)|(p & -> & _)]; discriminate.
Qed.

(** ** Settings and state stay well formed *)
Lemma calculate_valid pr ord x input se se' r : valid_settings (s_args se) -> env_ok (s_env se) -> iterates ord ->
  calculate pr ord x input se = (se', r) -> valid_settings (s_args se') /\ env_ok (s_env se') /\
  (e_vars (s_env se) = None <-> e_vars (s_env se') = None).
Proof.
  intros Ha Hs Ho C. destruct (recording_ok se Hs) as (Rok & Rv & Rn & _). rewrite <- Rv.
  destruct (calculate_cases _ _ _ _ _ _ _ C) as [(A & B & _)|(id & B & Hid & _)]; [rewrite A, B; split; [exact Ha|split; [exact Rok|tauto]]|].
  destruct (tokenize input (a_radix (s_args se))) as [[ts|name arguments]|e|p] eqn:T.
  all: swap 1 2.
  - destruct (body_command _ _ _ _ _ _ _ _ _ _ _ _ Ha Rok Ho T B) as (X1 & X2 & X3 & _). auto.
  - destruct (body_expression _ _ _ _ _ _ _ _ _ _ _ Ha Rok ltac:(intros N; apply Hid, Rn, N) T B) as (-> & E2 & _ & _ & E5).
    split; [exact Ha|]. split; [exact E2|]. destruct E5 as [(S & _)|(y & n & v & _ & _ & _ & N & (_ & (m & E & _) & _) & _)]; [exact (proj1 S)|].
    split; [intros X; destruct (N X)|rewrite E; discriminate].
  - destruct (body_unreadable _ _ _ _ _ _ _ _ _ _ ltac:(rewrite T; discriminate) B) as (-> & -> & _). split; [exact Ha|split; [exact Rok|tauto]].
  - destruct (body_unreadable _ _ _ _ _ _ _ _ _ _ ltac:(rewrite T; discriminate) B) as (-> & -> & _). split; [exact Ha|split; [exact Rok|tauto]].
Qed.

(** ** Variables across a session *)
Lemma remembered_recording se y v : e_vars (after_recording se) = e_vars (s_env se) -> (remembered (s_env se) y v <-> remembered (after_recording se) y v).
Proof. intros E. unfold remembered. rewrite E. tauto. Qed.
Lemma line_spares pr ord input se se' r y v : valid_settings (s_args se) -> env_ok (s_env se) ->
  calculate pr ord the_executor input se = (se', r) -> spares_variable pr the_executor y (Line input ord) se ->
  remembered (s_env se) y v -> remembered (s_env se') y v.
Proof.
  intros Ha Hs C (Ho & Sp1 & Sp2) R. cbn [happens] in Sp1. rewrite C in Sp1. cbn [snd] in Sp1.
  destruct (recording_ok se Hs) as (Rok & Rv & Rn & _). apply (remembered_recording se y v Rv) in R.
  destruct (calculate_cases _ _ _ _ _ _ _ C) as [(_ & B & _)|(id & B & Hid & _)]; [rewrite B; exact R|].
  destruct (tokenize input (a_radix (s_args se))) as [[ts|name arguments]|e|p] eqn:T.
  all: swap 1 2.
  - destruct (body_command _ _ _ _ _ _ _ _ _ _ _ _ Ha Rok Ho T B) as (_ & _ & _ & _ & X & _). apply X; [|exact R].
    intros c Rc (Hc & l & L & Hin). apply (Sp2 (pd_value name) (map pd_value l)); [| |exact Hin].
    + exists (pd_value arguments), l. split; [exists name, arguments; auto|auto].
    + destruct Hc as [-> | ->]; apply resolves_plain in Rc; try reflexivity; [right|left]; exact Rc.
  - destruct (body_expression _ _ _ _ _ _ _ _ _ _ _ Ha Rok ltac:(intros N; apply Hid, Rn, N) T B) as (_ & _ & _ & _ & E5).
    destruct E5 as [((_ & _ & _ & S & _) & _)|(z & n & w & As & _ & _ & N & (_ & _ & _ & K & _) & D)]; [apply S; exact R|].
    destruct (str_eqb y z) eqn:E; [apply str_eqb_spec in E; subst z|apply K; [|exact R]; intros ->; rewrite (proj2 (str_eqb_spec z z) eq_refl) in E; discriminate].
    exfalso. destruct (Sp1 ts n T As) as (m & Em). destruct D as [(D & _)|((e & D) & _)]; [|congruence].
    destruct (@format_result_ok failure (s_args se) w Ha) as (text & F). congruence.
  - destruct (body_unreadable _ _ _ _ _ _ _ _ _ _ ltac:(rewrite T; discriminate) B) as (_ & -> & _). exact R.
  - destruct (body_unreadable _ _ _ _ _ _ _ _ _ _ ltac:(rewrite T; discriminate) B) as (_ & -> & _). exact R.
Qed.
Lemma session_spares pr y v es : forall se, valid_settings (s_args se) -> env_ok (s_env se) -> Forall readable es ->
  spared pr the_executor y es se -> remembered (s_env se) y v ->
  valid_settings (s_args (session_after pr the_executor es se)) /\ env_ok (s_env (session_after pr the_executor es se)) /\
  remembered (s_env (session_after pr the_executor es se)) y v.
Proof.
  induction es as [|[input ord|inputs db] es IH]; intros se Ha Hs Hr Sp R; cbn [session_after].
  - auto.
  - apply Forall_cons_iff in Hr as [_ Hr]. destruct Sp as [Sp1 Sp]. cbn [happens] in *.
    destruct (calculate pr ord the_executor input se) as [se' r] eqn:C. cbn [fst] in *.
    destruct (calculate_valid _ _ _ _ _ _ _ Ha Hs (proj1 Sp1) C) as (A1 & A2 & _).
    apply (IH se' A1 A2 Hr Sp). exact (line_spares _ _ _ _ _ _ _ _ Ha Hs C Sp1 R).
  - apply Forall_cons_iff in Hr as [Hr0 Hr]. destruct Sp as [_ Sp]. cbn [happens fst] in *. apply IH; auto.
    destruct Hs as (A & B). split; [exact A|exact Hr0].
Qed.
(** settings alone *)
Lemma calculate_settings pr ord x input se se' r : valid_settings (s_args se) ->
  calculate pr ord x input se = (se', r) -> valid_settings (s_args se').
Proof.
  intros Ha C. destruct (calculate_cases _ _ _ _ _ _ _ C) as [(A & _)|(id & B & _)]; [rewrite A; exact Ha|].
  unfold calculate_body in B. destruct (tokenize input (a_radix (s_args se))) as [[ts|name arguments]|e|p] eqn:T.
  all: swap 1 2.
  - unfold execute_command in B. destruct (assoc _ _) as [c|].
    2:{ apply pair_equal_spec in B as [B _]. apply pair_equal_spec in B as [<- _]. exact Ha. }
    destruct (run_command pr ord x c arguments (s_args se) (after_recording se)) as [[a1 s1] [[m t]|e|p]] eqn:R; pose proof (command_settings _ _ _ _ _ _ _ _ _ _ Ha R) as V.
    + destruct (touch_all t id s1) as [s2 r2]. apply pair_equal_spec in B as [B _]. apply pair_equal_spec in B as [<- _]. exact V.
    + apply pair_equal_spec in B as [B _]. apply pair_equal_spec in B as [<- _]. exact V.
    + apply pair_equal_spec in B as [B _]. apply pair_equal_spec in B as [<- _]. exact V.
  - assert (s_args se' = s_args se) as ->; [|exact Ha].
    destruct (touch_all _ _ _) as [s1 [u|e|p]]; [|apply pair_equal_spec in B as [B _]; apply pair_equal_spec in B as [<- _]; reflexivity..].
    destruct ts; [apply pair_equal_spec in B as [B _]; apply pair_equal_spec in B as [<- _]; reflexivity|].
    destruct (syntax_tree_new _); [|apply pair_equal_spec in B as [B _]; apply pair_equal_spec in B as [<- _]; reflexivity..].
    destruct (tree_execute _ _ _ _ _) as [s2 r2]. apply pair_equal_spec in B as [B _]; apply pair_equal_spec in B as [<- _]; reflexivity.
  - apply pair_equal_spec in B as [B _]. apply pair_equal_spec in B as [<- _]. exact Ha.
  - apply pair_equal_spec in B as [B _]. apply pair_equal_spec in B as [<- _]. exact Ha.
Qed.
