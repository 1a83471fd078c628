(** PropertiesCalc.v -- submitting lines: C25, C33, C35, C36, C58-C60, C64 and C65. *)
From Verif Require Import SpecPrint ProofsPrint4 Base Position Num TokenTypes Errors Token SavedData Variables InputHistory
  SyntaxTree Commands Calculate Editor Sessions SpecLex SpecGrammar SpecEval SpecHistory SpecEditor SpecCalc SpecSyntax.
From Verif Require Import ProofsNum ProofsEval ProofsEval2 ProofsEval3 ProofsParse ProofsParse2 ProofsParse3
  ProofsDb ProofsDb2 ProofsDb3 ProofsDb4 ProofsDb5 ProofsEditor ProofsEditor2 ProofsEditor4
  ProofsCalc ProofsCalc2 ProofsCalc3 ProofsCalc4 ProofsCalc5 ProofsCalc6 ProofsCalc7 ProofsCalc8 ProofsCalc9 ProofsCalc10 PropertiesEditor.
From Verif Require PropertiesLex.
From Coq Require Import String Permutation Lia.
Local Open Scope nat_scope.
Local Open Scope list_scope.

(** ** For the examples *)
(** A session with default settings and a database holding one earlier line, in which [line] was typed. *)
Definition order : list str -> list str := fun l => l.
Lemma order_ok : iterates order.
Proof. intros l. apply Permutation_refl. Qed.
Definition a0 : args := settings0 false.
Lemma a0_ok : valid_settings a0.
Proof. split; [split; discriminate|]. split; [discriminate|]. split; reflexivity. Qed.
Fixpoint type_text (i : nat) (line : str) : list haction :=
  match line with [] => [] | c :: rest => TypeAt i c :: type_text (S i) rest end.
Definition typed (line : str) : input_history := hend (type_text 0 line) (ih_new true).
Definition with_line (line : str) (se : session) : session :=
  mkSession (s_args se) (Some (hend (type_text 0 line) (match s_inputs se with Some h => h | None => ih_new true end))) (s_env se).
Definition se0 : session := mkSession a0 (Some (ih_new true)) (mkEnv (Some []) (Some disk0)).
(** Type a line and submit it. *)
Definition enter (line : str) (se : session) : session * outcome failure str :=
  calculate Debug order the_executor line (with_line line se).
Definition afterwards (lines : list str) (se : session) : session := fold_left (fun s line => fst (enter line s)) lines se.
Definition value_of (se : session) (x : str) : option Q := match e_vars (s_env se) with Some m => vs_get m x | None => None end.
Lemma value_remembered se x v : value_of se x = Some v -> remembered (s_env se) x v.
Proof. unfold value_of, remembered. destruct (e_vars (s_env se)) as [m|]; [eauto|discriminate]. Qed.
(** The example database is one the program can produce. *)
Lemma disk0_file : program_file (sd_db disk0).
Proof.
  exists (fst (run [(0, false, Open); (0, false, AddInput (lit "1+1")); (0, false, AddInput (lit "2*2")); (0, false, Open)] fresh)), 0.
  split; [|split; [vm_compute; discriminate|vm_compute; reflexivity]].
  eexists. split; [|reflexivity]. intros i f x q id H. repeat (destruct H as [H|H]; [discriminate H|]). destruct H.
Qed.
Lemma se0_ok : env_ok (s_env se0).
Proof. split; [intros m x v [= <-]; discriminate|]. intros sd [= <-]. apply file_rows, disk0_file. Qed.
Lemma with_line_env line se : s_env (with_line line se) = s_env se.
Proof. reflexivity. Qed.
Lemma afterwards_ok lines : forall se, valid_settings (s_args se) -> env_ok (s_env se) ->
  valid_settings (s_args (afterwards lines se)) /\ env_ok (s_env (afterwards lines se)).
Proof.
  induction lines as [|line lines IH]; intros se A B; [split; assumption|]. cbn [afterwards fold_left]. unfold afterwards in IH.
  unfold enter. destruct (calculate Debug order the_executor line (with_line line se)) as [se' r] eqn:C.
  destruct (calculate_valid Debug order the_executor line (with_line line se) se' r A B order_ok C) as (A' & B' & _). cbn [fst]. apply IH; assumption.
Qed.

(** ** C25 *)
(** Recording a line does not touch the variables in memory, and on disk it can only evict. *)
Theorem C25_recording_keeps_variables : forall se, env_ok (s_env se) ->
  (forall y v, remembered (s_env se) y v <-> remembered (after_recording se) y v) /\
  (forall y v, stored (after_recording se) y v -> stored (s_env se) y v) /\
  (s_inputs se = None -> after_recording se = s_env se).
Proof.
  intros se H. destruct (recording_ok se H) as (_ & A & _ & B). split; [intros y v; apply remembered_recording; exact A|]. split; [exact B|].
  intros E. unfold after_recording. rewrite E. reflexivity.
Qed.
Print Assumptions C25_recording_keeps_variables.
(** Interpreting an expression line then changes nothing, or it is an assignment whose right-hand
    side has a value, and exactly the assigned variable changes, to that value. *)
Theorem C25_only_the_assigned_variable : forall pr ord x input se se' r ts,
  valid_settings (s_args se) -> env_ok (s_env se) -> is_expression (a_radix (s_args se)) input ts ->
  calculate pr ord x input se = (se', r) ->
  same_variables (after_recording se) (s_env se') \/
  exists y n v, assignment ts y n /\
    meaning (var_result (after_recording se)) (power_with pr (s_args se)) n (Value v) /\
    assigned (after_recording se) (s_env se') y v.
Proof.
  intros pr ord x input se se' r ts Ha Hs T C. destruct (calculate_expression _ _ _ _ _ _ _ _ Ha Hs T C) as (_ & _ & [(E & _)|(_ & _ & [(S & _)|D])]).
  - left. rewrite E. apply same_variables_refl.
  - left. exact S.
  - right. destruct D as (y & n & v & A & M & _ & _ & As & _). exists y, n, v. auto.
Qed.
Print Assumptions C25_only_the_assigned_variable.
(** A line reported as an input error, or crashing, assigns nothing; nor does a line that is not
    an assignment; nor one that is not even made of tokens. *)
Theorem C25_failed_line_assigns_nothing : forall pr ord x input se se' r ts,
  valid_settings (s_args se) -> env_ok (s_env se) -> is_expression (a_radix (s_args se)) input ts ->
  calculate pr ord x input se = (se', r) ->
  (exists m, r = Err (InputError m)) \/ (exists p, r = Panic p) \/ (forall y n, ~ assignment ts y n) ->
  same_variables (after_recording se) (s_env se').
Proof.
  intros pr ord x input se se' r ts Ha Hs T C F. destruct (calculate_expression _ _ _ _ _ _ _ _ Ha Hs T C) as (_ & _ & [(E & _)|(_ & _ & [(S & _)|D])]).
  - rewrite E. apply same_variables_refl.
  - exact S.
  - exfalso. destruct D as (y & n & v & A & _ & _ & _ & _ & D). destruct (@format_result_ok failure (s_args se) v Ha) as (text & X).
    destruct F as [(m & ->)|[(p & ->)|F]]; [| |destruct (F y n A)]; destruct D as [(D & _)|((e & D) & _)]; congruence.
Qed.
Print Assumptions C25_failed_line_assigns_nothing.
Theorem C25_unreadable_line_changes_nothing : forall pr ord x input se se' r,
  (forall t, tokenize input (a_radix (s_args se)) <> Ok t) -> calculate pr ord x input se = (se', r) ->
  s_env se' = after_recording se /\ s_args se' = s_args se /\ forall text, r <> Ok text.
Proof.
  intros pr ord x input se se' r N C. destruct (calculate_cases _ _ _ _ _ _ _ C) as [(A & B & h & h1 & db1 & o & _ & _ & _ & D)|(id & B & _)].
  - split; [exact B|]. split; [exact A|]. intros text ->. destruct D as [(e & _ & D)|(p & _ & D)]; discriminate D.
  - destruct (body_unreadable _ _ _ _ _ _ _ _ _ _ N B) as (E1 & E2 & E3). auto.
Qed.
Print Assumptions C25_unreadable_line_changes_nothing.
Example C25_example :
  let s1 := afterwards [lit "$x=3"; lit "$y=$x/2"; lit "$x=$x*$y"] se0 in
  value_of s1 (lit "$x") = Some (9 # 2) /\ value_of s1 (lit "$y") = Some (3 # 2) /\
  let s2 := afterwards [lit "$x=1/0"; lit "$y=2+"; lit "$x+1"; lit "$x=$z"] s1 in
  value_of s2 (lit "$x") = Some (9 # 2) /\ value_of s2 (lit "$y") = Some (3 # 2) /\
  valid_settings (s_args s2) /\ env_ok (s_env s2).
Proof.
  cbv zeta. split; [vm_compute; reflexivity|]. split; [vm_compute; reflexivity|]. split; [vm_compute; reflexivity|]. split; [vm_compute; reflexivity|].
  apply afterwards_ok; apply (afterwards_ok _ se0 a0_ok se0_ok).
Qed.

(** ** C33 *)
(** A successful assignment is remembered with the value of its right-hand side, which is also
    the result shown. *)
Theorem C33_assignment_remembered : forall pr ord x input se se' text ts y n,
  valid_settings (s_args se) -> env_ok (s_env se) -> is_expression (a_radix (s_args se)) input ts -> assignment ts y n ->
  calculate pr ord x input se = (se', Ok text) ->
  exists v, meaning (var_result (after_recording se)) (power_with pr (s_args se)) n (Value v) /\
    remembered (s_env se') y v /\ result_text (s_args se) v text.
Proof.
  intros pr ord x input se se' text ts y n Ha Hs T A C. destruct (calculate_expression _ _ _ _ _ _ _ _ Ha Hs T C) as (_ & _ & [(_ & [(e & E)|(p & E)] & _)|(_ & _ & [(_ & N)|D])]); try discriminate E.
  - destruct (N text eq_refl y n A).
  - destruct D as (y' & n' & v & A' & M & Cv & _ & (_ & R & _) & D).
    assert (y' = y /\ n' = n) as [-> ->].
    { destruct A as (p & q & rest & E1 & E2), A' as (p' & q' & rest' & E1' & E2'). rewrite E1 in E1'. injection E1' as <- <- <- <-. split; [reflexivity|].
      pose proof (line_tree_unique _ _ _ (lt_expression _ _ E2) (lt_expression _ _ E2')) as U. congruence. }
    exists v. split; [exact M|]. split; [exact R|]. apply (format_shows (E := failure)); [exact Ha|exact Cv|]. destruct D as [(D & _)|((e & D) & _)]; congruence.
Qed.
Print Assumptions C33_assignment_remembered.
(** It stays remembered through any session -- lines of any kind, editing, other sessions working
    on the database, external failures -- until it is assigned, purged or reloaded. *)
Theorem C33_remembered_until_changed : forall pr es se y v,
  valid_settings (s_args se) -> env_ok (s_env se) -> Forall readable es -> spared pr the_executor y es se ->
  remembered (s_env se) y v ->
  let later := session_after pr the_executor es se in
  remembered (s_env later) y v /\ valid_settings (s_args later) /\ env_ok (s_env later).
Proof. intros pr es se y v Ha Hs Hr Sp R. destruct (session_spares pr y v es se Ha Hs Hr Sp R) as (A & B & C). auto. Qed.
Print Assumptions C33_remembered_until_changed.
(** Using a remembered variable gives its value: the line [$y] shows it (or the database failed),
    and in any expression it stands for that value and nothing else. *)
Theorem C33_use_gives_the_value : forall pr ord x input se se' r y p v,
  valid_settings (s_args se) -> env_ok (s_env se) -> remembered (s_env se) y v ->
  (forall q res, var_result (after_recording se) y q res <-> exists w, res = Value w /\ (w == v)%Q) /\
  (is_expression (a_radix (s_args se)) input [tk (TVariable y) p] -> calculate pr ord x input se = (se', r) ->
   (exists text, r = Ok text /\ result_text (s_args se) v text) \/ (exists e, r = Err (RuntimeError e)) \/
   exists h q, s_inputs se = Some h /\ r = Panic q /\ snd (input_finished h (e_db (s_env se))) = Panic q).
Proof.
  intros pr ord x input se se' r y p v Ha Hs R. destruct (recording_ok se Hs) as (Rok & Rv & _). pose proof (proj1 (remembered_recording se y v Rv) R) as (m & Em & Eg).
  assert (V : forall q res, var_result (after_recording se) y q res <-> exists w, res = Value w /\ (w == v)%Q).
  { intros q res. split.
    - intros W. inversion W; subst; try congruence. exists q0. split; [reflexivity|]. assert (m0 = m) by congruence. subst m0. assert (v0 = v) by congruence. subst v0. assumption.
    - intros (w & -> & Ew). eapply vr_memory; eauto. }
  split; [exact V|]. intros T C.
  assert (Dv : derives 5 [tk (TVariable y) p] (NVar y p)) by (do 5 apply d_weaken; constructor).
  assert (U : forall n, derives 5 [tk (TVariable y) p] n \/ (exists z, assignment [tk (TVariable y) p] z n) -> n = NVar y p).
  { intros n [D|(z & p' & q & rest & E & _)]; [|discriminate E]. pose proof (line_tree_unique _ _ _ (lt_expression _ _ D) (lt_expression _ _ Dv)) as X. congruence. }
  assert (Cv : canon v) by (exact (proj1 Rok m y v Em Eg)).
  destruct (calculate_cases _ _ _ _ _ _ _ C) as [(_ & _ & h & h' & db' & o & Eh & _ & F & [(e & _ & ->)|(q & -> & ->)])|_].
  - right; left. eauto.
  - right; right. exists h, q. rewrite F. auto.
  - destruct (calculate_expression _ _ _ _ _ _ _ _ Ha Hs T C) as (_ & _ & [(_ & _ & h & Eh & Nf)|(_ & L & _)]).
    + destruct (calculate_cases _ _ _ _ _ _ _ C) as [(_ & _ & h0 & h' & db' & o & Eh0 & _ & F & [(e & _ & ->)|(q & -> & ->)])|(id & _ & _ & X)].
      * right; left. eauto.
      * right; right. exists h0, q. rewrite F. auto.
      * rewrite Eh in X. destruct X as (h' & db' & _ & F). rewrite F in Nf. destruct (Nf id eq_refl).
    + inversion L as [E|n w text D M Cw F E|n e D M E|n q D M E|z n q0 q1 A _ _ E|text0 p0 _ N C0 E|e N E]; subst.
      * match goal with H : _ :: _ = [] |- _ => discriminate H end.
      * left. assert (n = NVar y p) as -> by (apply U; destruct D as [D|(z & D & _)]; eauto). inversion M; subst.
        match goal with H : var_result _ _ _ _ |- _ => apply V in H as (w' & Ew & Eq); injection Ew as <- end.
        assert (w = v) as -> by (apply canon_inj; assumption). eauto.
      * rewrite (U _ D) in M. inversion M; subst. match goal with H : var_result _ _ _ _ |- _ => apply V in H as (w' & Ew & Eq); discriminate Ew end.
      * rewrite (U _ D) in M. inversion M; subst. match goal with H : var_result _ _ _ _ |- _ => apply V in H as (w' & Ew & Eq); discriminate Ew end.
      * destruct A as (p1 & q2 & rest & A & _). discriminate A.
      * destruct (N _ (lt_expression _ _ Dv)).
      * right; left. eauto.
Qed.
Print Assumptions C33_use_gives_the_value.
(** After [$x=3] and [$y=$x/2], lines that spare [$x]: a failing assignment, a use, another
    assignment, a purge of [$y], a command; meanwhile another session empties the database. *)
Definition sparing : list happening :=
  [Line (lit "$x=1/0") order; Line (lit "$x+1") order; Line (lit "$z=$x^2") order; Line (lit "/purgevar $y") order;
   Meanwhile None (Some (opened empty_db)); Line (lit "/radix 16") order; Line (lit "$q") order].
Example C33_example :
  let s1 := afterwards [lit "$x=3"; lit "$y=$x/2"] se0 in
  let s2 := session_after Debug the_executor sparing s1 in
  remembered (s_env s1) (lit "$x") 3 /\ Forall readable sparing /\ spared Debug the_executor (lit "$x") sparing s1 /\
  remembered (s_env s2) (lit "$x") 3 /\ value_of s2 (lit "$y") = None /\ value_of s2 (lit "$z") = Some 9%Q /\
  snd (enter (lit "$x") s2) = Ok (lit "3").
Proof.
  cbv zeta. set (s1 := afterwards [lit "$x=3"; lit "$y=$x/2"] se0).
  assert (R : remembered (s_env s1) (lit "$x") 3) by (apply value_remembered; vm_compute; reflexivity).
  assert (F : Forall readable sparing).
  { repeat (constructor; [first [exact I|intros sd [= <-]; split; [vm_compute; constructor|intros r []]]|]). constructor. }
  assert (Sp : spared Debug the_executor (lit "$x") sparing s1).
  { assert (K : forall line se, (exists ts, tokenize line (a_radix (s_args se)) = Ok (PTokens ts) /\
        (forall p q rest, ts <> tk (TVariable (lit "$x")) p :: tk TAssign q :: rest)) ->
        spares_variable Debug the_executor (lit "$x") (Line line order) se).
    { intros line se (ts & T & N). split; [exact order_ok|]. split.
      - intros ts' n T' (p & q & rest & E & _). unfold is_expression in T'. exfalso. apply (N p q rest). congruence.
      - intros cmd xs (arguments & l & (n & a & T' & _) & _). congruence. }
    assert (K2 : forall line se name arguments l, tokenize line (a_radix (s_args se)) = Ok (PCommand name arguments) ->
        tokenize_variable_list (pd_value arguments) = l -> (forall l', l = Ok l' -> ~ In (lit "$x") (map pd_value l')) ->
        spares_variable Debug the_executor (lit "$x") (Line line order) se).
    { intros line se name arguments l T L N. split; [exact order_ok|]. split; [intros ts n T'; unfold is_expression in T'; congruence|].
      intros cmd xs (arg & l' & (n & a & T' & _ & Ea) & L' & ->) _. rewrite T in T'. injection T' as <- <-. subst arg. apply N. congruence. }
    cbn [spared sparing]. split; [|split; [|split; [|split; [|split; [|split; [|split]]]]]].
    - split; [exact order_ok|]. split.
      + intros ts n _ _. eexists. vm_compute. reflexivity.
      + intros cmd xs (arguments & l & (n & a & T' & _) & _). vm_compute in T'. discriminate T'.
    - apply K. eexists. split; [vm_compute; reflexivity|]. intros p q rest E. discriminate E.
    - apply K. eexists. split; [vm_compute; reflexivity|]. intros p q rest E. discriminate E.
    - eapply K2; [vm_compute; reflexivity|vm_compute; reflexivity|]. intros l' [= <-] [E|[]]. vm_compute in E. discriminate E.
    - exact I.
    - eapply K2; [vm_compute; reflexivity|vm_compute; reflexivity|]. discriminate.
    - apply K. eexists. split; [vm_compute; reflexivity|]. intros p q rest E. discriminate E.
    - exact I. }
  split; [exact R|]. split; [exact F|]. split; [exact Sp|]. split; [|split; [|split]]; [|vm_compute; reflexivity..].
  apply (C33_remembered_until_changed Debug sparing s1 (lit "$x") 3); auto; apply (afterwards_ok _ se0 a0_ok se0_ok).
Qed.

(** ** C35 *)
(** A successful /purgevar: the listed variables are gone from memory and disk, all others are as they were. *)
Theorem C35_purge : forall pr ord input se se' text xs,
  valid_settings (s_args se) -> env_ok (s_env se) -> iterates ord ->
  variable_command (a_radix (s_args se)) input (lit "purgevar") xs ->
  calculate pr ord the_executor input se = (se', Ok text) ->
  (forall y, In y xs -> not_remembered (s_env se') y /\ forall v, ~ stored (s_env se') y v) /\
  (forall y v, ~ In y xs ->
     (remembered (after_recording se) y v <-> remembered (s_env se') y v) /\
     (stored (after_recording se) y v <-> stored (s_env se') y v)).
Proof.
  intros pr ord input se se' text xs Ha Hs Ho (arguments & l & (n & a & T & En & Ea) & L & ->) C. destruct (recording_ok se Hs) as (Rok & _).
  destruct (calculate_cases _ _ _ _ _ _ _ C) as [(_ & _ & h & h1 & db1 & o & _ & _ & _ & [(e & _ & D)|(p & _ & D)])|(id & B & _)]; try discriminate D.
  destruct (body_command _ _ _ _ _ _ _ _ _ _ _ _ Ha Rok Ho T B) as (_ & _ & _ & _ & X1 & X2 & _ & _ & _ & X3 & _).
  assert (Rc : resolves the_executor n CPurgeVar) by (apply resolves_plain; [reflexivity|exact En]).
  assert (Ro : forall c, resolves the_executor n c -> c = CPurgeVar) by (intros c Rc'; unfold resolves in *; congruence).
  split.
  - intros y Hy. destruct (X3 Rc text eq_refl) as (l' & L' & X). rewrite Ea, L in L'. injection L' as <-. apply X. exact Hy.
  - intros y v Hy. split.
    + apply X1. intros c Rc' (_ & l' & L' & Hin). rewrite Ea, L in L'. injection L' as <-. auto.
    + apply X2. intros c Rc'. rewrite (Ro c Rc'). split; [discriminate|]. intros _ (_ & l' & L' & Hin). rewrite Ea, L in L'. injection L' as <-. auto.
Qed.
Print Assumptions C35_purge.
(** A successful /reloadvar: the listed variables that are on disk take the value from there, the
    others keep theirs; nothing on disk changes, nor any variable not listed. *)
Theorem C35_reload : forall pr ord input se se' text xs,
  valid_settings (s_args se) -> env_ok (s_env se) -> iterates ord ->
  variable_command (a_radix (s_args se)) input (lit "reloadvar") xs ->
  calculate pr ord the_executor input se = (se', Ok text) ->
  (forall y, In y xs ->
     (exists v, stored (after_recording se) y v /\ remembered (s_env se') y v) \/
     ((forall v, ~ stored (after_recording se) y v) /\ forall v, remembered (after_recording se) y v <-> remembered (s_env se') y v)) /\
  (forall y v, ~ In y xs -> (remembered (after_recording se) y v <-> remembered (s_env se') y v)) /\
  (forall y v, stored (after_recording se) y v <-> stored (s_env se') y v).
Proof.
  intros pr ord input se se' text xs Ha Hs Ho (arguments & l & (n & a & T & En & Ea) & L & ->) C. destruct (recording_ok se Hs) as (Rok & _).
  destruct (calculate_cases _ _ _ _ _ _ _ C) as [(_ & _ & h & h1 & db1 & o & _ & _ & _ & [(e & _ & D)|(p & _ & D)])|(id & B & _)]; try discriminate D.
  destruct (body_command _ _ _ _ _ _ _ _ _ _ _ _ Ha Rok Ho T B) as (_ & _ & _ & _ & X1 & X2 & _ & _ & _ & _ & X3).
  assert (Rc : resolves the_executor n CReloadVar) by (apply resolves_plain; [reflexivity|exact En]).
  assert (Ro : forall c, resolves the_executor n c -> c = CReloadVar) by (intros c Rc'; unfold resolves in *; congruence).
  split; [|split].
  - intros y Hy. destruct (X3 Rc text eq_refl) as (l' & L' & X). rewrite Ea, L in L'. injection L' as <-. apply X. exact Hy.
  - intros y v Hy. apply X1. intros c Rc' (_ & l' & L' & Hin). rewrite Ea, L in L'. injection L' as <-. auto.
  - intros y v. apply X2. intros c Rc'. rewrite (Ro c Rc'). split; discriminate.
Qed.
Print Assumptions C35_reload.
(** [$y] is set by another session while this one has it as 1: reloading takes 7; [$z] is not on disk. *)
Definition disk_of (se : session) (x : str) : option (str * str) :=
  match e_db (s_env se) with
  | Some sd => option_map (fun r => (v_numer r, v_denom r)) (find_var (d_vars (sd_db sd)) x)
  | None => None
  end.
Definition other_session (line : str) (se : session) : session :=
  mkSession (s_args se) (s_inputs se) (mkEnv (e_vars (s_env se)) (e_db (s_env (fst (enter line (mkSession a0 (Some (ih_new true)) (mkEnv (Some []) (e_db (s_env se))))))))).
Example C35_example :
  let s1 := other_session (lit "$y=7") (afterwards [lit "$x=3"; lit "$y=1"] se0) in
  value_of s1 (lit "$y") = Some 1%Q /\ disk_of s1 (lit "$y") = Some (lit "7", lit "1") /\
  (let s2 := fst (enter (lit "/reloadvar $y $z") s1) in
   (exists t, snd (enter (lit "/reloadvar $y $z") s1) = Ok t) /\
   value_of s2 (lit "$y") = Some 7%Q /\ value_of s2 (lit "$z") = None /\ value_of s2 (lit "$x") = Some 3%Q) /\
  (let s2 := fst (enter (lit "/purgevar $y $z") s1) in
   (exists t, snd (enter (lit "/purgevar $y $z") s1) = Ok t) /\
   value_of s2 (lit "$y") = None /\ disk_of s2 (lit "$y") = None /\ value_of s2 (lit "$x") = Some 3%Q /\ disk_of s2 (lit "$x") = Some (lit "3", lit "1")) /\
  variable_command 10 (lit "/purgevar $y $z") (lit "purgevar") [lit "$y"; lit "$z"].
Proof.
  cbv zeta. split; [vm_compute; reflexivity|]. split; [vm_compute; reflexivity|]. split; [|split].
  - split; [eexists; vm_compute; reflexivity|]. vm_compute. auto.
  - split; [eexists; vm_compute; reflexivity|]. vm_compute. auto.
  - do 2 eexists. split; [do 2 eexists; split; [vm_compute; reflexivity|split; reflexivity]|]. split; vm_compute; reflexivity.
Qed.

(** ** C36 *)
(** Assigning the value of an expression that evaluates always takes effect in memory, whatever the
    database does; success means it is on disk too, and otherwise the failure is reported and the
    disk keeps what it had. *)
Theorem C36_save_failure_keeps_the_assignment_partial : forall pr a n y p id s s1 v s' r,
  settings_ok a -> env_ok s -> literals_ok n -> e_vars s <> None ->
  tree_execute pr a (mkTree None n) id s = (s1, Ok v) ->
  tree_execute pr a (mkTree (Some (mkPositioned y p)) n) id s = (s', r) ->
  assigned s s' y v /\
  ((r = Ok v /\ disk_updated s' y v) \/ ((exists e, r = Err (RuntimeError e)) /\ disk_kept s s' y)).
Proof.
  intros pr a n y p id s s1 v s' r Ha Hs Hl Hv E1 E2. unfold tree_execute in E1, E2. cbn [st_root st_var pd_value pd_pos] in *.
  destruct (exec pr a n s) as [s3 r3] eqn:Ee. destruct r3 as [w|e|q]; cbn [then_do] in E1, E2; [|apply pair_equal_spec in E1 as [_ E1]; discriminate E1..].
  apply pair_equal_spec in E1 as [_ E1]. injection E1 as ->.
  destruct (exec_sound pr a (power_with pr a) (exec_power_sound pr a Ha) s Hs _ Hl s (grows_refl s) s3 (Ok v) Ee) as (G & _ & C). specialize (C v eq_refl).
  pose proof (grows_ok _ _ Hs G) as Hs3. destruct (values_same _ _ Hs G) as (X1 & X2 & X3 & X5 & X4).
  destruct (e_vars s3) as [m|] eqn:Em; [|destruct (Hv (proj2 X1 eq_refl))].
  destruct (vs_update m y v id (e_db s3)) as [[m' odb'] r4] eqn:U. apply pair_equal_spec in E2 as [<- <-].
  destruct (update_spec s3 y v id m m' odb' r4 Hs3 C Em U) as (Hok & (As0 & As1 & As2 & As4 & As3) & Np4 & Hk4 & Hr). split.
  - split; [rewrite X2; exact As0|]. split; [exact As1|]. split; [|split]; intros z w Hz; [rewrite X3; apply As2; exact Hz| |rewrite X4; apply As3; exact Hz].
    intros K. apply As4; [exact Hz|]. apply X5. exact K.
  - destruct Hr as [(-> & Du)|((e & ->) & Dk & _)]; [left; split; [reflexivity|exact Du]|right]. split; [eauto|]. intros w. rewrite X4. apply Dk.
Qed.
Print Assumptions C36_save_failure_keeps_the_assignment_partial.
(** For a whole line: if it answers with a value, the assignment is in memory and on disk; if the
    memory changed but the disk was not updated, the line answers with the failure. *)
Theorem C36_reply_tells_whether_saved_partial : forall pr ord x input se se' r ts y n,
  valid_settings (s_args se) -> env_ok (s_env se) -> is_expression (a_radix (s_args se)) input ts -> assignment ts y n ->
  calculate pr ord x input se = (se', r) ->
  (forall text, r = Ok text -> exists v, remembered (s_env se') y v /\ disk_updated (s_env se') y v) /\
  (forall v, assigned (after_recording se) (s_env se') y v -> ~ same_variables (after_recording se) (s_env se') ->
     ~ disk_updated (s_env se') y v -> exists e, r = Err (RuntimeError e)).
Proof.
  intros pr ord x input se se' r ts y n Ha Hs T A C.
  assert (U : forall y' n', assignment ts y' n' -> y' = y).
  { intros y' n' A'. destruct A as (p & q & rest & E1 & E2), A' as (p' & q' & rest' & E1' & E2'). rewrite E1 in E1'. injection E1' as <- <- <- <-. reflexivity. }
  destruct (calculate_expression _ _ _ _ _ _ _ _ Ha Hs T C) as (_ & _ & [(E & D & _)|(_ & _ & [(S & N)|(y' & n' & v & A' & _ & _ & _ & (_ & R & _) & D)])]).
  - split; [intros text ->; destruct D as [(e & D)|(p & D)]; discriminate D|]. intros v _ Ns. destruct Ns. rewrite E. apply same_variables_refl.
  - split; [intros text Et; destruct (N text Et y n A)|]. intros v _ Ns. destruct (Ns S).
  - rewrite (U _ _ A') in *. split.
    + intros text Et. exists v. split; [exact R|]. destruct D as [(_ & D)|((e & D) & _)]; [exact D|congruence].
    + intros v' (_ & R' & _) _ Nd. assert (v' = v) as -> by (destruct R as (m & R1 & R2), R' as (m' & R1' & R2'); congruence).
      destruct D as [(_ & D)|(D & _)]; [destruct (Nd D)|exact D].
Qed.
Print Assumptions C36_reply_tells_whether_saved_partial.
(** In general an assignment does not take effect when the database fails: a line is recorded, and
    the variables in it are marked as used, before it is evaluated, and a failure there ends it. *)
Theorem C36_refuted : exists input se se' e ts y n,
  valid_settings (s_args se) /\ env_ok (s_env se) /\ is_expression (a_radix (s_args se)) input ts /\ assignment ts y n /\
  calculate Debug order the_executor input se = (se', Err (RuntimeError e)) /\ not_remembered (s_env se') y.
Proof.
  exists (lit "$x=5"), (mkSession a0 (Some (typed (lit "$x=5"))) (mkEnv (Some []) (Some (mkSD (sd_db disk0) (sd_pos disk0) [false; true])))).
  do 5 eexists. split; [exact a0_ok|]. split; [split; [intros m x v [= <-]; discriminate|intros sd [= <-]; apply file_rows, disk0_file]|].
  split; [vm_compute; reflexivity|]. split; [do 3 eexists; split; [reflexivity|do 5 apply d_weaken; constructor]|].
  split; [vm_compute; reflexivity|]. exists []. split; vm_compute; reflexivity.
Qed.
Print Assumptions C36_refuted.
Example C36_example : (* the save itself fails: third call *)
  let se := mkSession a0 (Some (typed (lit "$x=5"))) (mkEnv (Some []) (Some (mkSD (sd_db disk0) (sd_pos disk0) [false; false; true]))) in
  snd (calculate Debug order the_executor (lit "$x=5") se) = Err (RuntimeError SqliteError) /\
  value_of (fst (calculate Debug order the_executor (lit "$x=5") se)) (lit "$x") = Some 5%Q /\
  disk_of (fst (calculate Debug order the_executor (lit "$x=5") se)) (lit "$x") = None.
Proof. vm_compute. auto. Qed.

(** ** C58 *)
(** Submitting a line records exactly the line shown, once, in the session, whatever the line is and whatever happens to it. *)
Theorem C58_recorded_in_session : forall pr ord x input a h s se' r line,
  history_of_session h -> shown h = Ok line ->
  calculate pr ord x input (mkSession a (Some h) s) = (se', r) ->
  exists h', s_inputs se' = Some h' /\ history_of_session h' /\ recorded h' = line :: recorded h /\
    ih_index h' = 0 /\ shown h' = Ok [].
Proof. exact recorded_session. Qed.
Print Assumptions C58_recorded_in_session.
(** On disk: unless SQLite fails at that moment -- then nothing is written, the line is not
    interpreted and the failure is reported -- the line is appended (and the oldest ones dropped
    beyond the capacity) before it is interpreted, and interpreting it does not change the saved
    history any more, unless it is a /histcap command. *)
Theorem C58_recorded_on_disk : forall pr ord input a h m sd se' r line,
  valid_settings a -> env_ok (mkEnv m (Some sd)) -> iterates ord -> program_file (sd_db sd) -> shown h = Ok line ->
  calculate pr ord the_executor input (mkSession a (Some h) (mkEnv m (Some sd))) = (se', r) ->
  (r = Err (RuntimeError SqliteError) /\ hd_error (sd_faults sd) = Some true /\ s_args se' = a /\
     exists sd', s_env se' = mkEnv m (Some sd') /\ sd_db sd' = sd_db sd) \/
  (exists cap id sd1, capacity (sd_db sd) cap /\
     after_recording (mkSession a (Some h) (mkEnv m (Some sd))) = mkEnv m (Some sd1) /\
     inputs_of (sd_db sd1) = newest cap (inputs_of (sd_db sd) ++ [(id, line)]) /\
     (forall y q k, saved (sd_db sd1) y q k <-> saved (sd_db sd) y q k /\ In k (ids_of (sd_db sd1))) /\
     ((forall arguments, ~ is_command (a_radix a) input (lit "histcap") arguments) ->
        exists sd', e_db (s_env se') = Some sd' /\ inputs_of (sd_db sd') = inputs_of (sd_db sd1) /\ capacity (sd_db sd') cap)).
Proof. exact recorded_disk. Qed.
Print Assumptions C58_recorded_on_disk.
(** In the interactive program Enter submits the line shown, and it is the one interpreted: either
    the final redisplay stops the program before anything happens, or the line is recorded and the
    session continues with what [calculate] makes of that very line. *)
Theorem C58_enter_submits_the_shown_line : forall pr ord x tm mods u u' out st line,
  history_of_session (u_inputs u) -> shown (u_inputs u) = Ok line ->
  valid_settings (u_args u) -> env_ok (mkEnv (Some (u_vars u)) (u_db u)) -> (forall n, iterates (ord n)) ->
  ui_step pr ord x tm (EvKey KEnter mods) u = (u', out, st) ->
  (u_inputs u' = u_inputs u /\ u_vars u' = u_vars u /\ u_db u' = u_db u /\ st <> Waiting) \/
  (recorded (u_inputs u') = line :: recorded (u_inputs u) /\
   exists r, calculate pr (ord (u_count u)) x line (mkSession (u_args u) (Some (u_inputs u)) (mkEnv (Some (u_vars u)) (u_db u))) =
     (mkSession (u_args u') (Some (u_inputs u')) (mkEnv (Some (u_vars u')) (u_db u')), r) /\
     forall p, r = Panic p -> st = Crashed p).
Proof.
  intros pr ord x tm mods u u' out st line Hh Hl Ha Hs Ho. unfold ui_step. cbn [handle_event]. unfold finish_line. cbv zeta. cbn [u_args u_inputs u_line u_vars u_db u_count].
  destruct (display _ _ _ _ _) as [[l1 out1]|e|p]; [|intros E; apply pair_equal_spec in E as [E <-]; apply pair_equal_spec in E as [<- _]; left; repeat split; discriminate..].
  pose proof Hl as Hl'. unfold shown in Hl'. rewrite Hl'.
  set (se := mkSession (u_args u) (Some (u_inputs u)) (mkEnv (Some (u_vars u)) (u_db u))).
  destruct (calculate pr (ord (u_count u)) x line se) as [se' r] eqn:C.
  destruct (recorded_session _ _ _ _ _ _ _ _ _ _ Hh Hl C) as (h' & Eh & _ & Rec & _). rewrite Eh.
  destruct (calculate_valid _ _ _ _ _ _ _ (Ha : valid_settings (s_args se)) (Hs : env_ok (s_env se)) (Ho _) C) as (_ & _ & V).
  destruct se' as [a' i' [m' d']]. cbn [s_args s_inputs s_env e_vars e_db] in *. subst i'.
  destruct m' as [m'|]; [|exfalso; discriminate (proj2 V eq_refl)].
  intros E. right.
  destruct (render r) as [text|e|p] eqn:R.
  - match type of E with context [start_line pr tm ?u0] => assert (SL : let '(u2, _, _) := start_line pr tm u0 in u_args u2 = u_args u0 /\ u_inputs u2 = u_inputs u0 /\ u_vars u2 = u_vars u0 /\ u_db u2 = u_db u0) end.
    { unfold start_line. cbv zeta. destruct (tm _) as [[? ?] ?]. destruct (display _ _ _ _ _) as [[l' o]|e|p]; cbn; auto. }
    match type of E with context [start_line pr tm ?u0] => destruct (start_line pr tm u0) as [[u2 o2] st2] end. cbn [u_args u_inputs u_vars u_db] in SL.
    destruct SL as (A1 & A2 & A3 & A4). apply pair_equal_spec in E as [E _]. apply pair_equal_spec in E as [<- _].
    split; [rewrite A2; exact Rec|]. exists r. rewrite A1, A2, A3, A4. split; [reflexivity|]. intros p ->. discriminate R.
  - destruct r as [?|[?|?]|?]; discriminate R.
  - apply pair_equal_spec in E as [E <-]. apply pair_equal_spec in E as [<- _]. cbn [u_inputs u_args u_vars u_db]. split; [exact Rec|].
    exists r. split; [reflexivity|]. intros p' ->. cbn in R. congruence.
Qed.
Print Assumptions C58_enter_submits_the_shown_line.
(** Three lines, one of them malformed and one a command: each is recorded once, in the session and on disk. *)
Definition texts_on_disk (se : session) : list str :=
  match e_db (s_env se) with Some sd => map snd (inputs_of (sd_db sd)) | None => [] end.
Example C58_example :
  let se := afterwards [lit "1+"; lit "/radix 16"; lit "$x=0a"] se0 in
  texts_on_disk se = texts_on_disk se0 ++ [lit "1+"; lit "/radix 16"; lit "$x=0a"] /\
  option_map ih_internal (s_inputs se) = Some [lit "1+"; lit "/radix 16"; lit "$x=0a"] /\
  texts_on_disk se0 = [lit "1+1"; lit "2*2"] /\ a_radix (s_args se) = 16%N /\ value_of se (lit "$x") = Some 10%Q.
Proof. vm_compute. auto. Qed.
Example C58_premises : history_of_session (typed (lit "1+")) /\ shown (typed (lit "1+")) = Ok (lit "1+").
Proof.
  split; [|vm_compute; reflexivity]. exists true, (type_text 0 (lit "1+")). split; [|reflexivity].
  vm_compute. split; [intros x [= <-]; apply le_n|]. split; [intros x [= <-]; apply le_n|exact I].
Qed.

(** ** C59 *)
(** One-shot mode: a calculation without history, variables and database. *)
Theorem C59_keeps_nothing : forall pr ord x input a se' r, valid_settings a ->
  calculate pr ord x input (mkSession a None (mkEnv None None)) = (se', r) ->
  s_inputs se' = None /\ s_env se' = mkEnv None None.
Proof.
  intros pr ord x input a se' r Ha C. destruct (calculate_cases _ _ _ _ _ _ _ C) as [(_ & _ & h & h1 & db1 & o & E & _)|(id & B & N & (E1 & E2))]; [discriminate E|].
  split; [exact E1|]. subst id. eapply body_nobody; eauto.
Qed.
Print Assumptions C59_keeps_nothing.
Theorem C59_same_text_same_answer : forall pr ord ord' a input, one_shot pr ord a input = one_shot pr ord' a input.
Proof.
  intros pr ord ord' a input. unfold one_shot. destruct executor_new as [x|[]|p]; [|reflexivity]. unfold calculate. cbn [s_inputs s_args s_env].
  rewrite (body_order pr ord ord'). reflexivity.
Qed.
Print Assumptions C59_same_text_same_answer.
(** A line in which a variable occurs never gives a result, and nothing is ever reported as a
    database failure. *)
Theorem C59_variables_are_errors : forall pr ord a input ts y p, valid_settings a ->
  is_expression (a_radix a) input ts -> In (tk (TVariable y) p) ts ->
  forall line, one_shot pr ord a input <> Stdout line.
Proof.
  intros pr ord a input ts y p Ha T Hin line. unfold one_shot. rewrite executor_new_ok.
  destruct (calculate pr ord the_executor input _) as [se' r] eqn:C. cbn [snd].
  assert (Hn : env_ok nobody) by (split; discriminate).
  destruct (calculate_expression _ _ _ _ _ _ _ _ (Ha : valid_settings (s_args (mkSession a None nobody))) Hn T C) as (_ & _ & [(_ & _ & h & E & _)|(_ & L & _)]); [discriminate E|].
  change (after_recording _) with nobody in L. cbn [s_args] in L.
  inversion L as [E|n w text D M Cw F E|n e D M E|n q D M E|z n q0 q1 A _ _ E|text0 p0 _ N C0 E|e N E]; subst r; try discriminate.
  - subst ts. destruct Hin.
  - destruct D as [D|(z & D & N)]; [|destruct (N eq_refl)].
    destruct (value_leaves _ _ _ _ _ _ _ D M Hin) as (v & V). inversion V; subst; discriminate.
  - destruct e as [m|e]; [discriminate|]. discriminate.
Qed.
Print Assumptions C59_variables_are_errors.
Theorem C59_no_database_failure : forall pr ord a input e, valid_settings a -> one_shot pr ord a input <> MainError e.
Proof. intros pr ord a input e Ha. apply one_shot_no_runtime. exact Ha. Qed.
Print Assumptions C59_no_database_failure.
Example C59_example : let a := a0 in
  one_shot Debug order a (lit "1/3+1/6") = Stdout (lit "0.5") /\
  one_shot Debug order a (lit "$x=2") = Stderr (lit "Error: Variable store unavailable") /\
  one_shot Debug order a (lit "1+$x") = Stderr (lit "Error: Variable store unavailable") /\
  one_shot Debug order a (lit "/histcap") = Stderr (lit "Error: Database unavailable") /\
  one_shot Debug order a (lit "/purgevar $x") = Stderr (lit "Error: Variable store unavailable").
Proof. vm_compute. auto. Qed.

(** ** C60 *)
Theorem C60_expressions_keep_settings : forall pr ord x input se se' r,
  (forall name arguments, tokenize input (a_radix (s_args se)) <> Ok (PCommand name arguments)) ->
  calculate pr ord x input se = (se', r) -> s_args se' = s_args se.
Proof. exact expression_settings. Qed.
Print Assumptions C60_expressions_keep_settings.
(** Commands other than the two variable commands leave every variable in memory as it is, and
    except for /histcap also those on disk. *)
Theorem C60_commands_keep_variables : forall pr ord input se se' r name arguments,
  valid_settings (s_args se) -> env_ok (s_env se) -> iterates ord ->
  is_command (a_radix (s_args se)) input name arguments -> name <> lit "purgevar" -> name <> lit "reloadvar" ->
  calculate pr ord the_executor input se = (se', r) ->
  (forall y v, remembered (s_env se) y v <-> remembered (s_env se') y v) /\
  (name <> lit "histcap" -> forall y v, stored (after_recording se) y v <-> stored (s_env se') y v) /\
  (forall y v, stored (s_env se') y v -> stored (after_recording se) y v).
Proof.
  intros pr ord input se se' r name arguments Ha Hs Ho (n & a & T & En & Ea) N1 N2 C. destruct (recording_ok se Hs) as (Rok & Rv & _).
  destruct (calculate_cases _ _ _ _ _ _ _ C) as [(_ & B & _)|(id & B & _)].
  { rewrite B. split; [|split; [intros _ y v; tauto|auto]]. intros y v. apply remembered_recording. exact Rv. }
  destruct (body_command _ _ _ _ _ _ _ _ _ _ _ _ Ha Rok Ho T B) as (_ & _ & _ & _ & X1 & X2 & X3 & _).
  assert (R1 : ~ resolves the_executor n CPurgeVar) by (intros R; apply resolves_plain in R; [|reflexivity]; apply N1; rewrite <- En; exact R).
  assert (R2 : ~ resolves the_executor n CReloadVar) by (intros R; apply resolves_plain in R; [|reflexivity]; apply N2; rewrite <- En; exact R).
  split; [|split; [|exact X3]].
  - intros y v. rewrite (remembered_recording se y v Rv). apply X1. intros c Rc ([-> | ->] & _); tauto.
  - intros N3 y v. apply X2. intros c Rc. split; [|intros ->; tauto]. intros ->. apply resolves_plain in Rc; [|reflexivity]. apply N3. rewrite <- En. exact Rc.
Qed.
Print Assumptions C60_commands_keep_variables.
Example C60_example :
  let s1 := afterwards [lit "$x=3"; lit "/precision 7"] se0 in
  let s2 := afterwards [lit "2^0.5"; lit "$y=$x"; lit "1 +* 2"; lit "@"; lit "/f maybe"; lit "/nope"; lit "/histcap 20"] s1 in
  s_args s2 = s_args s1 /\ a_precision (s_args s1) = 7%N /\
  value_of s2 (lit "$x") = Some 3%Q /\ value_of s2 (lit "$y") = Some 3%Q /\ disk_of s2 (lit "$x") = Some (lit "3", lit "1").
Proof. vm_compute. auto. Qed.

(** ** C64 *)
(** Whatever the user does in the interactive program, whatever the terminal reports and whichever
    database operations fail: settings stay valid, remembered values stay in lowest terms, and the
    database file stays one that the program's own operations can produce (so C34 and C37-C45 apply to it). *)
Theorem C64_interactive_state_stays_good : forall pr ord x tm a db evs, (forall n, iterates (ord n)) ->
  valid_settings a -> (forall sd, db = Some sd -> program_file (sd_db sd)) ->
  let '(u, _, _) := interactive pr ord x tm a db evs in
  valid_settings (u_args u) /\ env_ok (mkEnv (Some (u_vars u)) (u_db u)) /\
  (forall sd, u_db u = Some sd -> program_file (sd_db sd)).
Proof.
  intros pr ord x tm a db evs Ho Ha Hd. pose proof (interactive_good pr ord x tm a db evs Ho Ha Hd) as G.
  destruct (interactive pr ord x tm a db evs) as [[u out] st]. destruct G as (A & B & C). split; [exact A|]. split; [exact B|]. intros sd E. apply C. exact E.
Qed.
Print Assumptions C64_interactive_state_stays_good.
Definition keys (s : str) : list event := map key s ++ [EvKey KEnter 0].
Definition session_demo : list event :=
  keys (lit "$x=3") ++ keys (lit "/radix 16") ++ keys (lit "$y=$x*0a") ++ [EvKey KUp 0; EvKey KUp 0; EvKey KBackspace 0; EvKey KBackspace 0] ++ keys (lit "8").
Example C64_example :
  let '(u, _, st) := interactive Debug (fun _ => order) the_executor term80 a0 (Some disk0) session_demo in
  st = Waiting /\ a_radix (u_args u) = 8%N /\ vs_get (u_vars u) (lit "$y") = Some 30%Q /\ u_count u = 4 /\
  recorded (u_inputs u) = [lit "/radix 8"; lit "$y=$x*0a"; lit "/radix 16"; lit "$x=3"].
Proof. vm_compute. auto. Qed.

(** ** C65 *)
(** The reply to an expression line: if recording it failed, that failure; otherwise what the
    grammar, the meaning of the expression and the output format say. *)
Theorem C65_reply : forall pr ord x input se se' r ts,
  valid_settings (s_args se) -> env_ok (s_env se) -> is_expression (a_radix (s_args se)) input ts ->
  calculate pr ord x input se = (se', r) ->
  (exists h, s_inputs se = Some h /\
     ((exists e, snd (input_finished h (e_db (s_env se))) = Err e /\ r = Err (RuntimeError e)) \/
      exists p, snd (input_finished h (e_db (s_env se))) = Panic p /\ r = Panic p)) \/
  line_reply pr (s_args se) (after_recording se) ts r.
Proof.
  intros pr ord x input se se' r ts Ha Hs T C.
  destruct (calculate_cases _ _ _ _ _ _ _ C) as [(_ & _ & h & h' & db' & o & Eh & _ & F & D)|(id & B & Hid & Hi)].
  - left. exists h. rewrite F. cbn [snd]. split; [exact Eh|]. destruct D as [(e & -> & ->)|(p & -> & ->)]; [left|right]; eauto.
  - right. destruct (calculate_expression _ _ _ _ _ _ _ _ Ha Hs T C) as (_ & _ & [(_ & _ & h & Eh & Nf)|(_ & L & _)]); [|exact L].
    rewrite Eh in Hi. destruct Hi as (h' & db' & _ & F). rewrite F in Nf. destruct (Nf id eq_refl).
Qed.
Print Assumptions C65_reply.
(** C04, as the user sees it: a line with a character that is no ASCII, or with an expression word that is neither variable,
    keyword nor number, is answered with the complaint about the first such character or word, at its place, and does
    nothing but being recorded. *)
Theorem C04_reply : forall pr ord x input se se' r,
  valid_settings (s_args se) -> calculate pr ord x input se = (se', r) ->
  (exists h, s_inputs se = Some h /\ forall id, snd (input_finished h (e_db (s_env se))) <> Ok id) \/
  (forall text p,
     (exists pre c post, input = pre ++ c :: post /\ all_ascii pre /\ (128 <= c)%N /\
        text = lit "Non-ASCII data in input" /\ p = mkPos (List.length pre) 1) \/
     (all_ascii input /\ ~ command_line input /\ exists w i, bad_word (a_radix (s_args se)) input w i /\
        text = lit "Unable to parse number: '" ++ w ++ lit "'" /\ p = mkPos i (List.length w)) ->
     r = Err (InputError (mkMP text (Some p))) /\ s_args se' = s_args se /\ s_env se' = after_recording se).
Proof.
  intros pr ord x input se se' r Ha C.
  destruct (calculate_cases _ _ _ _ _ _ _ C) as [(_ & _ & h & h' & db' & o & Eh & _ & F & D)|(id & B & _)].
  - left. exists h. rewrite F. cbn [snd]. split; [exact Eh|]. intros id. destruct D as [(e & -> & _)|(p & -> & _)]; discriminate.
  - right. intros text p H.
    assert (T : exists e, tokenize input (a_radix (s_args se)) = Err e /\ fail_parse e = InputError (mkMP text (Some p))).
    { destruct H as [(pre & c & post & E & Hp & Hc & -> & ->)|(Ka & Kc & w & i & Kw & -> & ->)].
      - exists (mkPositioned NonAscii (mkPos (List.length pre) 1)). split; [|reflexivity]. apply PropertiesLex.C04_lex_errors; [exact (proj1 Ha)|]. left. eauto 8.
      - exists (mkPositioned (InvalidNumber w) (mkPos i (List.length w))). split; [|reflexivity]. apply PropertiesLex.C04_lex_errors; [exact (proj1 Ha)|]. right. eauto 8. }
    destruct T as (e & T & <-). unfold calculate_body in B. rewrite T in B. apply pair_equal_spec in B as [B <-]. apply pair_equal_spec in B as [<- <-]. auto.
Qed.
Print Assumptions C04_reply.
Example C04_reply_example :
  snd (enter (lit "1 + 2x") se0) = Err (InputError (mkMP (lit "Unable to parse number: '2x'") (Some (mkPos 4 2)))) /\
  bad_word 10 (lit "1 + 2x") (lit "2x") 4 /\ all_ascii (lit "1 + 2x") /\ ~ command_line (lit "1 + 2x").
Proof.
  split; [vm_compute; reflexivity|].
  destruct (proj1 (PropertiesLex.C04_lex_errors (lit "1 + 2x") 10 (mkPositioned (InvalidNumber (lit "2x")) (mkPos 4 2)) ltac:(lia))) as [(pre & c & post & _ & _ & _ & E)|(A & B & w & i & H & E)]; [vm_compute; reflexivity|discriminate E|].
  apply (f_equal pd_value) in E as E1. apply (f_equal pd_pos) in E as E2. cbn [pd_value] in E1. cbn [pd_pos] in E2. injection E1 as <-. injection E2 as <-. auto.
Qed.
(** In particular, if the expression has an exact value [q] by the rules of arithmetic, the reply is that
    value in the chosen format; if the rules make it an error, the reply is that error (or the database failed). *)
Theorem C65_exact_reply : forall pr ord x input se se' r ts n k res,
  valid_settings (s_args se) -> env_ok (s_env se) -> is_expression (a_radix (s_args se)) input ts ->
  digits_kept pr (s_args se) = Some k -> no_faults (after_recording se) ->
  derives 5 ts n \/ ((exists y, assignment ts y n) /\ e_vars (s_env se) <> None) ->
  meaning (var_result (after_recording se)) power_exact n res ->
  calculate pr ord x input se = (se', r) ->
  (exists e, r = Err (RuntimeError e) /\ e_db (s_env se) <> None) \/
  (exists h p, s_inputs se = Some h /\ snd (input_finished h (e_db (s_env se))) = Panic p /\ r = Panic p) \/
  match res with
  | Value q => exists v text, (v == q)%Q /\ canon v /\ result_text (s_args se) v text /\ r = Ok text
  | Fails e => r = Err e
  | Crashes => exists p, r = Panic p
  end.
Proof. exact exact_reply. Qed.
Print Assumptions C65_exact_reply.
(** A line that is no expression is answered with a complaint that is true of it. *)
Theorem C72_line : forall pr ord x input se se' r ts,
  valid_settings (s_args se) -> env_ok (s_env se) -> is_expression (a_radix (s_args se)) input ts ->
  ts <> [] -> (forall t, ~ line_tree ts t) ->
  calculate pr ord x input se = (se', r) ->
  (exists e, r = Err (RuntimeError e) /\ e_db (s_env se) <> None) \/
  (exists h p, s_inputs se = Some h /\ snd (input_finished h (e_db (s_env se))) = Panic p /\ r = Panic p) \/
  exists text p, r = Err (InputError (mkMP text (Some p))) /\ syntax_complaint ts text p.
Proof. exact syntax_line. Qed.
Print Assumptions C72_line.
Example C65_example :
  snd (enter (lit "1/3 + 2*(7-$x)") (afterwards [lit "$x = 4 % 3"] se0)) = Ok (lit "12.33333") /\
  snd (enter (lit "2 +") se0) = Err (InputError (mkMP (lit "Addition Operator (+) is missing a required operand") (Some (mkPos 2 1)))) /\
  snd (enter (lit " ") se0) = Ok [].
Proof. vm_compute. auto. Qed.
