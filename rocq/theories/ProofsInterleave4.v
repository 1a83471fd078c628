(** ProofsInterleave4.v -- interleaved calls (C89): what a line being processed gets from its calls, and what it makes of it. *)
From Verif Require Import SpecPrint ProofsPrint4 Base Position Num TokenTypes Errors Token Operations SavedData Variables InputHistory
  SyntaxTree Commands Calculate Editor Sessions Main Io Together Interleave SpecGrammar SpecEval SpecHistory SpecSyntax SpecEditor SpecCalc SpecSession SpecData SpecMain SpecTogether SpecInterleave.
From Verif Require Import ProofsNum ProofsLex ProofsLex2 ProofsSyntax ProofsParse ProofsParse2 ProofsEval ProofsEval2 ProofsEval3 ProofsDb ProofsDb2 ProofsDb4 ProofsParse3 ProofsEditor4 ProofsCalc ProofsCalc2 ProofsCalc3 ProofsCalc4 ProofsCalc5 ProofsCalc6 ProofsCalc7 ProofsCalc8 ProofsCalc9 ProofsMain ProofsMain2 ProofsTogether ProofsInterleave ProofsInterleave2 ProofsInterleave3.
From Coq Require Import String Lia.
Local Open Scope nat_scope.
Local Open Scope list_scope.

(** A call: the file before it, the reply, the file after it. *)
Record moment := mkMoment { m_pre : database; m_call : call; m_reply : reply; m_post : database }.
Definition well (m : moment) : Prop := program_file (m_pre m) /\ exists st, represents (m_pre m) st /\
  m_reply m = snd (spec_call (m_call m) st) /\ represents (m_post m) (fst (spec_call (m_call m) st)).

(** Whatever happens between the calls, [P] holds of the calls and the outcome. *)
Fixpoint wp {A} (P : list moment -> A -> Prop) (l : list moment) (t : io A) : Prop :=
  match t with
  | Finished a => P l a
  | Ask c k => forall m, well m -> m_call m = c -> wp P (l ++ [m]) (k (m_reply m))
  end.
Lemma wp_bind {A B} (P : list moment -> A -> Prop) (Q : list moment -> B -> Prop) t f : forall l, wp P l t ->
  (forall l' a, P l' a -> wp Q l' (f a)) -> wp Q l (io_bind t f).
Proof. induction t as [a|c k IH]; intros l H F; [apply F, H|]. cbn [io_bind wp] in *. intros m W E. apply IH; [apply H; assumption|exact F]. Qed.
Lemma wp_weaken {A} (P Q : list moment -> A -> Prop) t : forall l, wp P l t -> (forall l' a, P l' a -> Q l' a) -> wp Q l t.
Proof. induction t as [a|c k IH]; intros l H F; [apply F, H|]. cbn [wp] in *. intros m W E. apply IH; [apply H; assumption|exact F]. Qed.

Lemma rep_ids d st : represents d st -> ids_of d = map fst (st_inputs st).
Proof. intros R. unfold ids_of, inputs_of. rewrite map_map. cbn [fst]. rewrite (rp_hist _ _ R). apply link_ids. Qed.
Lemma get_moment m y : well m -> m_call m = GetVariable y ->
  (exists v, m_reply m = RValue (Some v) /\ on_disk (m_pre m) y v /\ canon v) \/ (m_reply m = RValue None /\ not_on_disk (m_pre m) y).
Proof.
  intros (_ & st & R & E & _) C. rewrite C in E. cbn [spec_call snd] in E. destruct (rp_vars _ _ R) as (_ & B & K).
  destruct (st_vars st y) as [[q id]|] eqn:F; cbn [option_map fst] in E.
  - left. exists q. split; [exact E|]. apply K in F as (r & I & Nm & H & _). split; [exists r; auto|apply H].
  - right. split; [exact E|]. intros r I Nm. destruct (B r I) as (q & H). assert (X : st_vars st y = Some (q, v_used r)) by (apply K; eauto). congruence.
Qed.
Lemma has_not l id : has_input l id = false -> ~ In id (map fst l).
Proof. intros H I. apply has_input_in in I. congruence. Qed.
Lemma touch_moment m y id : well m -> m_call m = TouchVariable y id ->
  m_reply m = RDone \/ (m_reply m = RError SqliteConstraint /\ ~ In id (ids_of (m_pre m))).
Proof.
  intros (_ & st & R & E & _) C. rewrite C in E. cbn [spec_call] in E. destruct (st_vars st y) as [[q k]|]; [|left; exact E].
  destruct (has_input (st_inputs st) id) eqn:H; cbn [snd] in E; [left; exact E|right]. split; [exact E|]. rewrite (rep_ids _ _ R). apply has_not, H.
Qed.
Lemma set_moment m y q id : well m -> m_call m = SetVariable y q id -> canon q ->
  (m_reply m = RDone /\ on_disk (m_post m) y q) \/ (m_reply m = RError SqliteConstraint /\ ~ In id (ids_of (m_pre m))).
Proof.
  intros (_ & st & R & E & R') C Cq. rewrite C in E, R'. cbn [spec_call] in E, R'.
  destruct (has_input (st_inputs st) id) eqn:H; cbn [snd fst] in E, R'.
  - left. split; [exact E|]. destruct (rp_vars _ _ R') as (_ & _ & K). cbn [st_vars] in K.
    destruct (proj1 (K y q id)) as (r & I & Nm & Hr & _); [unfold set_var; rewrite str_eqb_refl; reflexivity|]. exists r. auto.
  - right. split; [exact E|]. rewrite (rep_ids _ _ R). apply has_not, H.
Qed.

(** ** Expressions *)
(** What the program may remember when it started remembering [m0] and made the calls [l]. *)
Definition known (m0 : vstore) (l : list moment) (vars : vstore) : Prop := vars_ok vars /\
  forall y, match vs_get m0 y with
            | Some v => vs_get vars y = Some v
            | None => forall v, vs_get vars y = Some v -> exists m, In m l /\ on_disk (m_pre m) y v
            end.
Definition grown (vars vars' : vstore) : Prop := forall y v, vs_get vars y = Some v -> vs_get vars' y = Some v.
Definition compatible (vars : vstore) (val : str -> option Q) : Prop := forall y v, vs_get vars y = Some v -> val y = Some v.
Definition lacking (l : list moment) (vars : vstore) (missing : option str) : Prop :=
  forall y, missing = Some y -> vs_get vars y = None /\ exists m, In m l /\ not_on_disk (m_pre m) y.
Lemma known_more m0 l l' vars : known m0 l vars -> incl l l' -> known m0 l' vars.
Proof.
  intros (V & K) I. split; [exact V|]. intros y. specialize (K y). destruct (vs_get m0 y); [exact K|]. intros v E. destruct (K v E) as (m & Im & D). exists m. auto.
Qed.
Lemma compatible_less vars vars' val : grown vars vars' -> compatible vars' val -> compatible vars val.
Proof. intros G C y v E. apply C, G, E. Qed.
Lemma grown_trans v1 v2 v3 : grown v1 v2 -> grown v2 v3 -> grown v1 v3.
Proof. intros A B y v E. apply B, A, E. Qed.
Lemma grown_refl v : grown v v.
Proof. intros y w E. exact E. Qed.

(** A step: [vals] says what the computed values mean, [stop] what an early end means. *)
Definition ends_as {A} (o : outcome failure A) (r : result) : Prop :=
  match o with Ok _ => False | Err e => r = Fails e | Panic _ => r = Crashes end.
Definition step_post {A} (m0 vars : vstore) (l : list moment) (vals : (str -> option Q) -> A -> Prop)
           (stop : (str -> option Q) -> result -> Prop) (l' : list moment) (vr : vstore * outcome failure A) : Prop :=
  incl l l' /\ known m0 l' (fst vr) /\ grown vars (fst vr) /\
  (forall v, snd vr = Ok v -> forall val, compatible (fst vr) val -> vals val v) /\
  (forall r, ends_as (snd vr) r -> exists missing, lacking l' (fst vr) missing /\
     forall val, compatible (fst vr) val -> (forall y, missing = Some y -> val y = None) -> stop val r).
Lemma step_further {A} m0 vars l (vals vals' : _ -> A -> Prop) (stop stop' : _ -> result -> Prop) vars1 l1 l2 vr :
  incl l l1 -> grown vars vars1 -> step_post m0 vars1 l1 vals stop l2 vr ->
  (forall val v, compatible vars1 val -> vals val v -> vals' val v) -> (forall val r, compatible vars1 val -> stops r -> stop val r -> stop' val r) ->
  step_post m0 vars l vals' stop' l2 vr.
Proof.
  intros I G (I2 & K & G2 & V & S) Hv Hs. split; [intros m Im; apply I2, I, Im|]. split; [exact K|]. split; [eapply grown_trans; eauto|]. split.
  - intros v E val C. apply Hv; [eapply compatible_less; eauto|apply V; assumption].
  - intros r E. destruct (S r E) as (missing & L & F). exists missing. split; [exact L|]. intros val C M. apply Hs; [eapply compatible_less; eauto| |apply F; assumption].
    destruct (snd vr); cbn in E; [contradiction E|subst r; exact Logic.I..].
Qed.
Lemma wp_then {A B} m0 vars l (vals : _ -> A -> Prop) (stop : _ -> result -> Prop) (vals' : _ -> B -> Prop) (stop' : _ -> result -> Prop) t f :
  wp (step_post m0 vars l vals stop) l t ->
  (forall a vars1 l1, incl l l1 -> known m0 l1 vars1 -> grown vars vars1 -> (forall val, compatible vars1 val -> vals val a) ->
     wp (step_post m0 vars l vals' stop') l1 (f a vars1)) ->
  (forall val r, stops r -> stop val r -> stop' val r) -> wp (step_post m0 vars l vals' stop') l (io_then t f).
Proof.
  intros T F S. unfold io_then. eapply wp_bind; [exact T|]. intros l' [vars1 o] (I & K & G & V & St). cbn [fst snd] in *.
  destruct o as [v|e|p].
  - apply F; auto.
  - cbn [wp]. split; [exact I|]. split; [exact K|]. split; [exact G|]. split; [discriminate|]. cbn [snd ends_as]. intros r ->. destruct (St (Fails e) eq_refl) as (ms & L & X). exists ms. split; [exact L|].
    intros val C M. apply S; [exact Logic.I|]. apply X; assumption.
  - cbn [wp]. split; [exact I|]. split; [exact K|]. split; [exact G|]. split; [discriminate|]. cbn [snd ends_as]. intros r ->. destruct (St Crashes eq_refl) as (ms & L & X). exists ms. split; [exact L|].
    intros val C M. apply S; [exact Logic.I|]. apply X; assumption.
Qed.
Lemma step_done {A} m0 vars l (vals : _ -> A -> Prop) (stop : (str -> option Q) -> result -> Prop) o l1 vars1 : incl l l1 -> known m0 l1 vars1 -> grown vars vars1 ->
  (forall v, o = Ok v -> forall val, compatible vars1 val -> vals val v) -> (forall r, ends_as o r -> forall val, compatible vars1 val -> stop val r) ->
  wp (step_post m0 vars l vals stop) l1 (Finished (vars1, o)).
Proof.
  intros I K G V S. cbn [wp]. split; [exact I|]. split; [exact K|]. split; [exact G|]. split; [exact V|]. cbn [snd fst]. intros r E. exists None. split; [intros y [=]|]. intros val C _. apply S; assumption.
Qed.
Lemma ends_result o r : ends_as o r -> r = result_of o.
Proof. destruct o; cbn; [contradiction|auto..]. Qed.

Section Evaluation.
  Context (pr : profile) (a : args) (Ha : valid_settings a) (m0 : vstore).
  Let Hpow := exec_power_sound pr a (valid_settings_ok _ Ha).
  Notation means := (fun n val => meaning (has_values val) (power_with pr a) n).
  Definition node_vals (n : node) (val : str -> option Q) (v : Q) : Prop := meaning (has_values val) (power_with pr a) n (Value v) /\ canon v.

  Lemma wp_variable y p l vars : known m0 l vars -> wp (step_post m0 vars l (node_vals (NVar y p)) (means (NVar y p))) l (variable_io y p vars).
  Proof.
    intros K. unfold variable_io, lookup_io. destruct (vs_get vars y) as [v|] eqn:E.
    - cbn [io_bind fst snd]. apply step_done; [apply incl_refl|exact K|apply grown_refl| |].
      + intros w [= <-] val C. split; [|eapply (proj1 K), E]. constructor. unfold has_values. rewrite (C _ _ E). exists v. split; reflexivity.
      + intros r [].
    - unfold reload_io. cbn [io_bind wp]. intros m W Cm. assert (I : incl l (l ++ [m])) by (intros z Hz; apply in_or_app; left; exact Hz).
      destruct (get_moment m y W Cm) as [(v & -> & D & C)|(-> & D)]; cbn [value_of fst snd].
      + apply step_done; [exact I| | | |].
        * split; [apply vars_ok_insert; [apply K|exact C]|]. intros z. rewrite vs_get_insert.
          pose proof (proj2 (known_more _ _ _ _ K I) z) as Kz. destruct (str_eqb z y) eqn:Ez.
          -- apply str_eqb_eq in Ez as ->. destruct (vs_get m0 y) as [w|]; [congruence|]. intros w [= <-]. exists m. split; [apply in_or_app; right; left; reflexivity|exact D].
          -- exact Kz.
        * intros z w Ez. rewrite vs_get_insert. destruct (str_eqb z y) eqn:Q; [|exact Ez]. apply str_eqb_eq in Q as ->. congruence.
        * intros w [= <-] val Cv. split; [|exact C]. constructor. unfold has_values. rewrite (Cv y v); [exists v; split; reflexivity|]. rewrite vs_get_insert, str_eqb_refl. reflexivity.
        * intros r [].
      + cbn [wp]. split; [exact I|]. split; [eapply known_more; eauto|]. split; [apply grown_refl|]. split; [discriminate|]. cbn [snd ends_as fst]. intros r ->. exists (Some y). split.
        * intros z [= <-]. split; [exact E|]. exists m. split; [apply in_or_app; right; left; reflexivity|exact D].
        * intros val Cv Mv. constructor. unfold has_values. rewrite (Mv y eq_refl). reflexivity.
  Qed.

  Lemma wp_exec n : literals_ok n -> forall l vars, known m0 l vars -> wp (step_post m0 vars l (node_vals n) (means n)) l (exec_io pr a n vars).
  Proof.
    induction 1 as [v p C|y p|o p n _ IH|o p x1 x2 _ IHl _ IHr|f p ns w _ IH|p q n _ IH]; intros l vars K.
    - apply step_done; [apply incl_refl|exact K|apply grown_refl| |intros r []]. intros w [= <-] val _. split; [constructor; reflexivity|exact C].
    - apply wp_variable, K.
    - cbn [exec_io]. eapply wp_then; [apply IH, K| |].
      + intros v vars1 l1 I K1 G1 V. apply step_done; [exact I|exact K1|exact G1| |].
        * intros w E val Cv. destruct (V val Cv) as (M & C). destruct (exec_unary_sound pr a _ Hpow o p v C) as (U & Cw). rewrite E in U, Cw. split; [eapply m_unary; [exact M|exact U]|apply Cw; reflexivity].
        * intros r E val Cv. destruct (V val Cv) as (M & C). destruct (exec_unary_sound pr a _ Hpow o p v C) as (U & _). rewrite (ends_result _ _ E). eapply m_unary; [exact M|exact U].
      + intros val r Sr M. apply m_unary_stop; assumption.
    - cbn [exec_io]. eapply wp_then; [apply IHl, K| |].
      + intros v vars1 l1 I K1 G1 V. eapply wp_weaken with (P := step_post m0 vars1 l1 (node_vals (NBin o p x1 x2)) (fun val r => means (NBin o p x1 x2) val r \/ means x2 val r)).
        2:{ intros l2 vr S. eapply step_further; [exact I|exact G1|exact S|auto|]. intros val r Cv Sr [M|M]; [exact M|]. eapply m_binary_right; [apply (V val Cv)|exact M|exact Sr]. }
        eapply wp_then; [apply IHr, K1| |].
        * intros v2 vars2 l2 I2 K2 G2 V2. apply step_done; [exact I2|exact K2|exact G2| |].
          -- intros u E val Cv. destruct (V2 val Cv) as (M2 & C2). destruct (V val (compatible_less _ _ _ G2 Cv)) as (M & C). destruct (exec_binary_sound pr a _ Hpow o p v v2 C C2) as (U & Cw).
             rewrite E in U, Cw. split; [eapply m_binary; eassumption|apply Cw; reflexivity].
          -- intros r E val Cv. destruct (V2 val Cv) as (M2 & C2). destruct (V val (compatible_less _ _ _ G2 Cv)) as (M & C). destruct (exec_binary_sound pr a _ Hpow o p v v2 C C2) as (U & _).
             left. rewrite (ends_result _ _ E). eapply m_binary; eassumption.
        * intros val r _ M. right. exact M.
      + intros val r Sr M. apply m_binary_left; assumption.
    - rewrite fun_io.
      assert (L : forall l vars, known m0 l vars -> wp (step_post m0 vars l (fun val vs => meanings (has_values val) (power_with pr a) ns vs /\ Forall canon vs) (fun val => first_stop (has_values val) (power_with pr a) ns)) l (list_io pr a ns vars)).
      { clear l vars K. induction ns as [|n ns IHn]; intros l vars K; cbn [list_io].
        - apply step_done; [apply incl_refl|exact K|apply grown_refl| |intros r []]. intros vs [= <-] val _. split; constructor.
        - eapply wp_then; [apply (IH n (or_introl eq_refl)), K| |].
          + intros v vars1 l1 I K1 G1 V.
            eapply wp_weaken with (P := step_post m0 vars1 l1 (fun val vs => meanings (has_values val) (power_with pr a) (n :: ns) vs /\ Forall canon vs) (fun val => first_stop (has_values val) (power_with pr a) ns)).
            2:{ intros l2 vr S. eapply step_further; [exact I|exact G1|exact S|auto|]. intros val r Cv Sr M. eapply fs_later; [apply (V val Cv)|exact M]. }
            eapply wp_then; [apply (IHn (fun m Hm => IH m (or_intror Hm))), K1| |auto].
            intros vs vars2 l2 I2 K2 G2 V2. apply step_done; [exact I2|exact K2|exact G2| |intros r []].
            intros vs' [= <-] val Cv. destruct (V2 val Cv) as (M2 & C2). destruct (V val (compatible_less _ _ _ G2 Cv)) as (M & C). split; constructor; assumption.
          + intros val r Sr M. apply fs_here; assumption. }
      eapply wp_then; [apply L, K| |].
      + intros vs vars1 l1 I K1 G1 V. apply step_done; [exact I|exact K1|exact G1| |].
        * intros v E val Cv. destruct (V val Cv) as (M & C). destruct (exec_function_sound f p vs) as (K1' & K2'); [intros u Hu; rewrite Forall_forall in C; apply C, Hu|].
          destruct vs as [|v0 vs]; [rewrite K2' in E by reflexivity; discriminate E|]. destruct (K1' ltac:(discriminate)) as (v' & E' & C' & X). assert (v' = v) by congruence; subst v'. split; [eapply m_function; eassumption|exact C'].
        * intros r E val Cv. destruct (V val Cv) as (M & C). destruct (exec_function_sound f p vs) as (K1' & K2'); [intros u Hu; rewrite Forall_forall in C; apply C, Hu|].
          destruct vs as [|v0 vs]; [|destruct (K1' ltac:(discriminate)) as (v' & E' & _); rewrite E' in E; destruct E]. rewrite K2' in E by reflexivity. cbn in E. subst r. inversion M; subst. apply m_function_empty.
      + intros val r Sr M. apply m_function_stop; assumption.
    - cbn [exec_io]. eapply wp_weaken; [apply IH, K|]. intros l2 vr S. eapply step_further; [apply incl_refl|apply grown_refl|exact S| |].
      + intros val v _ (M & C). split; [constructor; exact M|exact C].
      + intros val r _ _ M. constructor. exact M.
  Qed.
End Evaluation.

(** ** Lines *)
(** At one of the calls after the first, the input [id] was not in the file. *)
Definition evicted (l : list moment) (id : Z) : Prop := exists m, In m (tl l) /\ ~ In id (ids_of (m_pre m)).
Lemma in_tl_app {A} (l l' : list A) x : l <> [] -> In x l' -> In x (tl (l ++ l')).
Proof. destruct l; [congruence|]. intros _ H. cbn. apply in_or_app. right. exact H. Qed.
Lemma evicted_more l l' id : evicted l id -> evicted (l ++ l') id.
Proof. intros (m & I & N). exists m. split; [|exact N]. destruct l; [destruct I|]. cbn in *. apply in_or_app. left. exact I. Qed.
Lemma wp_prefix {A} (P : list moment -> A -> Prop) t : forall l, wp P l t -> wp (fun l' a => P l' a /\ exists l'', l' = l ++ l'') l t.
Proof.
  induction t as [a|c k IH]; intros l H; [split; [exact H|exists []; symmetry; apply app_nil_r]|]. cbn [wp] in *. intros m W E. eapply wp_weaken; [apply IH, H; assumption|].
  cbn. intros l' a (Pa & l'' & ->). split; [exact Pa|]. exists (m :: l''). rewrite <- app_assoc. reflexivity.
Qed.
Lemma wp_touches names id : forall l, l <> [] ->
  wp (fun l' r => (exists l'', l' = l ++ l'') /\ (r = Ok tt \/ (r = Err SqliteConstraint /\ evicted l' id))) l (touch_loop_io names id).
Proof.
  intros l N. eapply wp_weaken; [apply wp_prefix with (P := fun l' r => r = Ok tt \/ (r = Err SqliteConstraint /\ evicted l' id))|cbn; tauto].
  revert l N. induction names as [|y names IH]; intros l N; [left; reflexivity|]. cbn [touch_loop_io touch_io io_bind wp]. intros m W C.
  destruct (touch_moment m y id W C) as [->|(-> & E)]; cbn [done_of].
  - apply IH. destruct l; discriminate.
  - right. split; [reflexivity|]. exists m. split; [apply in_tl_app; [exact N|left; reflexivity]|exact E].
Qed.

Inductive comes_to (pr : profile) (a : args) (ts : list ptoken) (m0 : vstore) (id : Z) (l : list moment) (vars' : vstore) : outcome failure str -> Prop :=
| ct_evicted : forall vars1, evicted l id -> known m0 l vars1 ->
    (vars' = vars1 \/ exists y n v, assignment ts y n /\ vars' = vs_insert vars1 y v) -> comes_to pr a ts m0 id l vars' (Err (RuntimeError SqliteConstraint))
| ct_plain : forall r missing, known m0 l vars' -> lacking l vars' missing ->
    (forall val, compatible vars' val -> (forall y, missing = Some y -> val y = None) -> answers pr a val ts r) ->
    (forall text, r = Ok text -> forall y n, ~ assignment ts y n) -> comes_to pr a ts m0 id l vars' r
| ct_assigned : forall y n v vars1 text l0 m, assignment ts y n -> known m0 l vars1 -> vars' = vs_insert vars1 y v -> canon v ->
    (forall val, compatible vars1 val -> meaning (has_values val) (power_with pr a) n (Value v)) ->
    result_text a v text -> l = l0 ++ [m] -> on_disk (m_post m) y v -> comes_to pr a ts m0 id l vars' (Ok text).

Lemma wp_expression pr ord x input id a vars l ts : valid_settings a -> vars_ok vars -> l <> [] -> tokenize input (a_radix a) = Ok (PTokens ts) ->
  wp (fun l' avr => fst (fst avr) = a /\ (exists l'', l' = l ++ l'') /\ comes_to pr a ts vars id l' (snd (fst avr)) (snd avr)) l (body_io pr ord x input id a vars).
Proof.
  intros Ha V N T. eapply wp_weaken; [apply wp_prefix with (P := fun l' avr => fst (fst avr) = a /\ comes_to pr a ts vars id l' (snd (fst avr)) (snd avr))|cbn; tauto].
  assert (K0 : forall l', known vars l' vars) by (intros l'; split; [exact V|]; intros y; destruct (vs_get vars y); [reflexivity|discriminate]).
  unfold body_io. rewrite T. eapply wp_bind; [apply wp_touches, N|]. cbn. intros l1 r ((l'' & ->) & [->|(-> & E)]).
  2:{ cbn. split; [reflexivity|]. eapply ct_evicted; [exact E|apply K0|left; reflexivity]. }
  assert (N1 : l ++ l'' <> []) by (destruct l; [congruence|discriminate]). revert N1. generalize (l ++ l''). clear l N l''. intros l N.
  destruct ts as [|t0 ts'].
  { cbn. split; [reflexivity|]. eapply ct_plain with (missing := None); [apply K0|intros y [=]|intros; apply an_blank; reflexivity|]. intros text _ y n (p & q & rest & X & _). discriminate X. }
  remember (t0 :: ts') as ts eqn:Ets. assert (Hne : ts <> []) by (subst ts; discriminate). clear Ets t0 ts'.
  destruct (syntax_tree_new ts) as [t|e|p] eqn:P.
  3:{ exfalso. exact (parse_total ts p P). }
  2:{ cbn. split; [reflexivity|]. eapply ct_plain with (missing := None); [apply K0|intros y [=]| |discriminate]. intros val _ _.
      apply an_syntax; [exact Hne|intros t L; apply parse_iff in L; congruence|]. apply parse_told; [|exact P].
      apply tokenize_layout in T as (_ & T & _); [exact T|]. apply radix_ok_spec. destruct Ha as (Ha & _). unfold SpecCalc.radix_ok in Ha. lia. }
  pose proof (typed_literals input (a_radix a) ts t (proj1 Ha) T P) as Lit.
  assert (Root : derives 5 ts (st_root t) \/ exists y, assignment ts y (st_root t)).
  { apply parse_iff in P. inversion P as [ts0 n D|y p q ts0 n D]; subst; cbn [st_root]; [left; exact D|right]. exists y, p, q, ts0. auto. }
  unfold tree_io, io_then. eapply wp_bind.
  - eapply wp_bind with (Q := fun l' vr => comes_to pr a ts vars id l' (fst vr) (match snd vr with Ok v => @format_result failure a v | Err e => Err e | Panic p => Panic p end)); [apply (wp_exec pr a Ha vars _ Lit l vars (K0 l))|].
    intros l1 [vars1 o] (I & K & _ & Vl & St). cbn [fst snd] in *. destruct o as [v|e|p].
    + destruct (Vl v eq_refl (vs_get vars1)) as (_ & C); [intros y w E; exact E|].
      assert (M : forall val, compatible vars1 val -> meaning (has_values val) (power_with pr a) (st_root t) (Value v)) by (intros val Cv; apply (Vl v eq_refl val Cv)).
      destruct (format_text (E := failure) a v Ha C) as (text & F & RT).
      destruct (st_var t) as [[y p]|] eqn:Ev.
      * assert (A : assignment ts y (st_root t)).
        { apply parse_iff in P. inversion P as [ts0 n D|y0 p0 q0 ts0 n D]; subst; cbn [st_root st_var] in *; [discriminate Ev|]. injection Ev as <- <-. exists p0, q0, ts0. auto. }
        cbn [update_io io_bind wp pd_value fst snd]. intros m W Cm. assert (I1 : incl l1 (l1 ++ [m])) by (intros z Hz; apply in_or_app; left; exact Hz).
        destruct (set_moment m y v id W Cm C) as [(-> & D)|(-> & E)]; cbn [done_of].
        -- rewrite F. eapply ct_assigned; [exact A|eapply known_more; [exact K|exact I1]|reflexivity|exact C|exact M|exact RT|reflexivity|exact D].
        -- eapply ct_evicted; [|eapply known_more; [exact K|exact I1]|right; eauto]. exists m. split; [|exact E]. apply in_tl_app; [|left; reflexivity]. intros ->. destruct l as [|z l]; [congruence|]. apply (I z). left. reflexivity.
      * cbn [wp fst snd]. rewrite F. eapply ct_plain with (missing := None); [exact K|intros y [=]| |].
        -- intros val Cv _. eapply an_value; [exact Root|apply M, Cv|exact C|exact RT].
        -- intros text' _ y n A. destruct (assignment_tree _ _ _ _ P A) as (p & ->). discriminate Ev.
    + destruct (St _ eq_refl) as (missing & L & X). eapply ct_plain; [exact K|exact L| |discriminate]. intros val Cv Mv. eapply an_fails; [exact Root|apply X; assumption].
    + destruct (St _ eq_refl) as (missing & L & X). eapply ct_plain; [exact K|exact L| |discriminate]. intros val Cv Mv. eapply an_crashes; [exact Root|apply X; assumption].
  - cbn. intros l1 vr H. auto.
Qed.
