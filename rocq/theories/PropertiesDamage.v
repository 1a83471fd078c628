(** PropertiesDamage.v -- database files of any content: C99. *)
From Verif Require Import Base SpecDecimal Position Num TokenTypes Errors Token SavedData Variables InputHistory
  SyntaxTree Commands Calculate Editor Sessions Main Together Interleave SpecLex SpecGrammar SpecSyntax SpecEval SpecPrint SpecHistory SpecEditor SpecCalc SpecInterleave SpecDamage.
From Verif Require Import ProofsNum ProofsEval ProofsEval2 ProofsEval3 ProofsEditor ProofsCalc6 ProofsCalm ProofsDamage ProofsDamage2 ProofsDamage3 PropertiesEditor PropertiesCalc.
From Coq Require Import String Lia List.
Local Open Scope nat_scope.
Local Open Scope list_scope.

(** ** C99 *)
(** Asking for a variable comes to its [reading] in the file, whatever the file contains, and never changes
    the file; with one row per name the reading is unique. *)
Theorem C99_get_variable : forall sd x sd' o, no_faults (mkEnv None (Some sd)) -> get_variable x sd = (sd', o) ->
  reading (sd_db sd) x o /\ sd_db sd' = sd_db sd /\ sd_pos sd' = sd_pos sd.
Proof.
  intros sd x sd' o N. unfold get_variable, sd_call. specialize (N sd eq_refl).
  destruct (tx_get_reading (sd_db sd) x) as (o' & E & R).
  destruct (sd_faults sd) as [|[|] fs]; [|destruct (N (or_introl eq_refl))|];
    rewrite E; destruct o' as [v|e|q]; cbn [bind]; intros H; apply pair_equal_spec in H as [<- <-]; cbn; auto.
Qed.
Print Assumptions C99_get_variable.
Theorem C99_one_reading : forall d x o o', one_row_each d -> reading d x o -> reading d x o' -> o = o'.
Proof. exact reading_unique. Qed.
Print Assumptions C99_one_reading.

(** No other call on the database crashes or runs forever, whatever the file contains and whatever fails. *)
Theorem C99_no_other_call_crashes : forall sd q,
  (forall faults file, snd (sd_open faults file) <> Panic q) /\
  (forall line, snd (add_to_input_history line sd) <> Panic q) /\
  (forall x v id, snd (set_variable x v id sd) <> Panic q) /\
  (forall x id, snd (touch_variable x id sd) <> Panic q) /\
  (forall x, snd (clear_variable x sd) <> Panic q) /\
  snd (get_max_history_size sd) <> Panic q /\
  (forall n, snd (set_max_history_size n sd) <> Panic q) /\
  snd (get_prev_input_history sd) <> Panic q.
Proof.
  intros sd q. split.
  { intros faults file. unfold sd_open. pose proof (nc_call _ tx_open (mkSD file None faults)) as H. destruct (sd_call tx_open _) as [sd' [x|e|p]]; cbn [snd] in *; try discriminate.
    intros [= ->]. exact (H q nc_open eq_refl). }
  split; [intros line; apply nc_call, nc_add|]. split; [intros x v id; apply nc_call, nc_set_variable|]. split; [intros x id; apply nc_call, nc_touch|].
  split; [intros x; apply nc_call, nc_clear|]. split; [apply nc_call, nc_get_max|]. split; [intros n; apply nc_call, nc_set_max|].
  destruct (get_prev_input_history sd) as [sd' o] eqn:E. cbn [snd]. intros ->. exact (get_prev_no_panic _ _ _ E).
Qed.
Print Assumptions C99_no_other_call_crashes.

(** A whole line over any file.  A session over any file stays one. *)
Theorem C99_session : forall pr ord x input se se' r, iterates ord -> any_session se ->
  calculate pr ord x input se = (se', r) -> any_session se'.
Proof. intros pr ord x input se se' r Ho A C. exact (proj1 (any_line _ _ _ _ _ _ _ Ho A C)). Qed.
Print Assumptions C99_session.
(** If the line can be recorded, the reply to an expression is the one of [any_reply]: the value, or the
    failure, that the expression means with each variable standing for its reading; *)
Theorem C99_reply : forall pr ord x input ts se se' r, iterates ord -> any_session se ->
  is_expression (a_radix (s_args se)) input ts -> calculate pr ord x input se = (se', r) ->
  (exists h e, s_inputs se = Some h /\ snd (input_finished h (e_db (s_env se))) = Err e /\ r = Err (RuntimeError e)) \/
  any_reply pr (s_args se) (after_recording se) ts r.
Proof.
  intros pr ord x input ts se se' r Ho A T C. destruct (any_line _ _ _ _ _ _ _ Ho A C) as (_ & [H|(H & _)]); [left; exact H|right; exact (H ts T)].
Qed.
Print Assumptions C99_reply.
(** and the program can crash only on an expression for the reasons of C18, on a use of a variable whose row has
    the denominator zero, or on a command that names such a variable. *)
Theorem C99_crash_sites_partial : forall pr ord x input se se' q k, iterates ord -> any_session se ->
  digits_kept pr (s_args se) = Some k ->
  calculate pr ord x input se = (se', Panic q) ->
  let s := after_recording se in
  let comes_to n v := meaning (variable_reading s) (power_with pr (s_args se)) n (Value v) in
  let zero_row z := exists sd row i, e_db s = Some sd /\ In row (d_vars (sd_db sd)) /\ v_name row = z /\
                      integer_text (v_numer row) i /\ integer_text (v_denom row) 0 in
  (exists ts n m, is_expression (a_radix (s_args se)) input ts /\ (derives 5 ts n \/ exists y, assignment ts y n) /\ subnode m n /\
     ((exists p l r v w, m = NBin Modulus p l r /\ (w == 0)%Q /\ comes_to l v /\ comes_to r w) \/
      (exists p l r v w, m = NBin Exponent p l r /\ crashing_power v w /\ comes_to l v /\ comes_to r w) \/
      (exists p m' v, m = NUn SquareRoot p m' /\ crashing_power v (1 # 2)%Q /\ comes_to m' v) \/
      (exists p z, m = NVar z p /\ zero_row z))) \/
  (exists name xs z, variable_command (a_radix (s_args se)) input name xs /\ In z xs /\ zero_row z).
Proof.
  intros pr ord x input se se' q k Ho A Hk C s comes_to zero_row. destruct (any_line _ _ _ _ _ _ _ Ho A C) as (_ & [(h & e & _ & _ & X)|(H1 & H2)]); [discriminate X|].
  destruct (H2 q eq_refl) as [(ts & T)|(name & xs & sd & z & V & Hz & Es & R)].
  - left. specialize (H1 ts T). inversion H1 as [| | |n p D M| |]; subst. destruct (damage_origin _ _ _ _ _ Hk M) as (m & v & w & Sm & O).
    exists ts, n, m. split; [exact T|]. split; [exact D|]. split; [exact Sm|]. unfold comes_to, zero_row.
    destruct O as [(p1 & l & r & E & E0 & L & R)|[(p1 & l & r & E & E0 & L & R)|[(p1 & m' & E & E0 & L)|(p1 & z & sd & row & i & E & E0 & Hr & Hn & N1 & N2)]]].
    + left. eauto 12.
    + right; left. eauto 12.
    + right; right; left. eauto 12.
    + right; right; right. exists p1, z. split; [exact E|]. eauto 10.
  - right. exists name, xs, z. split; [exact V|]. split; [exact Hz|]. destruct (reading_panic _ _ _ R) as (row & i & Hr & Hn & N1 & N2). exists sd, row, i. auto.
Qed.
Print Assumptions C99_crash_sites_partial.

(** However many programs use a consistent file -- whatever else is wrong with it -- and however their calls interleave and
    fail, it is consistent at every moment. *)
Theorem C99_stays_consistent : forall pr ord x tm turns d, (forall i n, iterates (ord i n)) -> Forall proper_turn turns -> consistent d ->
  Forall consistent (room_files pr ord x tm turns (empty_room d)).
Proof. intros pr ord x tm turns d Ho P H. exact (files_kept consistent pr ord x tm turns d consistent_kept Ho P H). Qed.
Print Assumptions C99_stays_consistent.
(** A consistent file that was opened takes new lines as long as there is room, whatever the links between its lines are. *)
Theorem C99_takes_lines : forall sd c text sd' o, consistent (sd_db sd) -> no_faults (mkEnv None (Some sd)) ->
  (exists faults file before, consistent file /\ sd_open faults file = (before, Ok sd)) ->
  In (meta_MaxHistorySize, c) (d_meta (sd_db sd)) -> (Z.of_nat (List.length (d_hist (sd_db sd))) < c)%Z ->
  add_to_input_history text sd = (sd', o) ->
  exists id, o = Ok id /\ ~ has_line (sd_db sd) id /\
    map h_id (d_hist (sd_db sd')) = map h_id (d_hist (sd_db sd)) ++ [id] /\
    map h_input (d_hist (sd_db sd')) = map h_input (d_hist (sd_db sd)) ++ [text] /\ d_vars (sd_db sd') = d_vars (sd_db sd).
Proof.
  intros sd c text sd' o C N (faults & file & before & Cf & O) Hc L E. specialize (N sd eq_refl).
  assert (T : exists front, tx_open file = Ok (front, sd_db sd)).
  { revert O. unfold sd_open, sd_call. cbn [sd_db sd_faults sd_pos]. destruct faults as [|[|] fs]; try discriminate; destruct (tx_open file) as [[front d]|e|p]; try discriminate; intros X;
      apply pair_equal_spec in X as [_ X]; injection X as <-; exists front; reflexivity. }
  destruct T as (front & T). destruct (open_present _ _ _ T) as ((f & Hf) & (b & Hb) & _).
  destruct (add_room text (sd_db sd) c f b C Hc L Hf Hb) as (id & d' & A & H1 & H2 & H3 & _).
  assert (Fresh : ~ has_line (sd_db sd) id).
  { intros H. destruct (ks_add text _ _ _ C A) as (_ & Nd & _). rewrite H1 in Nd. apply NoDup_remove_2 in Nd. apply Nd. rewrite app_nil_r. destruct H as (r & Hr & <-). apply in_map. exact Hr. }
  revert E. unfold add_to_input_history, sd_call. destruct (sd_faults sd) as [|[|] fs]; [|destruct (N (or_introl eq_refl))|]; rewrite A; intros E; apply pair_equal_spec in E as [<- <-]; exists id; cbn [sd_db]; auto.
Qed.
Print Assumptions C99_takes_lines.

(** *** Examples: a file with rows that the program never writes. *)
Definition bad_rows : list var_row :=
  [mkVar (lit "$x") (lit "1") (lit "0") 1%Z; mkVar (lit "$y") (lit "one") (lit "2") 1%Z;
   mkVar (lit "$z") (lit "-1_0") (lit "-4") 1%Z; mkVar (lit "$w") (lit "3") (lit "") 1%Z].
Definition damaged : session :=
  mkSession a0 (Some (ih_new true)) (mkEnv (Some []) (Some (mkSD (set_vars (sd_db disk0) bad_rows) (sd_pos disk0) []))).
Lemma damaged_ok line : placed (type_text 0 line) (ih_new true) = true -> any_session (with_line line damaged).
Proof.
  intros H.
  split; [exact a0_ok|]. split; [intros m y v [= <-]; discriminate|]. split; [intros sd [= <-] []|].
  exists true, (type_text 0 line). split; [|reflexivity]. apply placed_ok. exact H.
Qed.
Example C99_example :
  any_session (with_line (lit "$z") damaged) /\
  snd (enter (lit "$z") damaged) = Ok (lit "2.5") /\
  snd (enter (lit "$y") damaged) = Err (RuntimeError (unreadable (lit "numerator") (lit "one") (lit "$y"))) /\
  snd (enter (lit "$w + 1") damaged) = Err (RuntimeError (unreadable (lit "denominator") [] (lit "$w"))) /\
  snd (enter (lit "/reloadvar $z") damaged) = Ok (lit "Set $z to 5/2") /\
  snd (enter (lit "$z * 2") (afterwards [lit "$y"; lit "$w"; lit "/purgevar $x"] damaged)) = Ok (lit "5") /\
  snd (enter (lit "1 + 1") damaged) = Ok (lit "2").
Proof. split; [apply damaged_ok; vm_compute; reflexivity|]. vm_compute. repeat split. Qed.
(** A row with the denominator zero makes the program crash when its variable is used or named in a command. *)
Theorem C99_crash_refuted : exists line line2 se, any_session (with_line line se) /\ any_session (with_line line2 se) /\
  (exists ts, is_expression (a_radix (s_args se)) line ts) /\
  snd (enter line se) = Panic DivideByZero /\ snd (enter line2 se) = Panic DivideByZero /\ line = lit "$x" /\ line2 = lit "/reloadvar $x".
Proof.
  exists (lit "$x"), (lit "/reloadvar $x"), damaged. split; [apply damaged_ok; vm_compute; reflexivity|]. split; [apply damaged_ok; vm_compute; reflexivity|].
  split; [eexists; vm_compute; reflexivity|]. split; [vm_compute; reflexivity|]. split; [vm_compute; reflexivity|]. split; reflexivity.
Qed.
Print Assumptions C99_crash_refuted.

(** The damaged file is consistent; opening it works, leaves it consistent, and leaves room for lines. *)
Example C99_consistent_example :
  let d := sd_db (match e_db (s_env damaged) with Some sd => sd | None => disk0 end) in
  consistent d /\ hd_error (d_hist d) <> None /\ List.length (d_vars d) = 4 /\
  (exists before sd, sd_open [] d = (before, Ok sd) /\ consistent (sd_db sd) /\
     In (meta_MaxHistorySize, DEFAULT_MAX_HISTORY_SIZE) (d_meta (sd_db sd)) /\ (Z.of_nat (List.length (d_hist (sd_db sd))) < DEFAULT_MAX_HISTORY_SIZE)%Z).
Proof.
  cbv zeta. set (d := sd_db _).
  assert (C : consistent d).
  { vm_compute in d. unfold consistent. cbn [d d_meta d_hist d_tags d_vars map fst h_id v_name]. unfold has_line. cbn [d d_hist].
    repeat match goal with |- _ /\ _ => split | |- NoDup _ => constructor | |- ~ In _ _ => let X := fresh in intros X; vm_compute in X; repeat (destruct X as [X|X]; [discriminate X|]); exact X end.
    - intros r id Hr Hi. cbn [In] in Hr. repeat destruct Hr as [Hr|Hr]; try contradiction; subst r; cbn [h_next h_prev] in Hi; destruct Hi as [Hi|Hi]; try discriminate Hi; injection Hi as <-; first [eexists; split; [left; reflexivity|reflexivity] | eexists; split; [right; left; reflexivity|reflexivity]].
    - intros k id Hk. cbn [In] in Hk. repeat destruct Hk as [Hk|Hk]; try contradiction; try discriminate Hk; apply pair_equal_spec in Hk as [_ Hk]; injection Hk as <-; first [eexists; split; [left; reflexivity|reflexivity] | eexists; split; [right; left; reflexivity|reflexivity]].
    - intros v Hv. cbn [In] in Hv. repeat destruct Hv as [Hv|Hv]; try contradiction; subst v; cbn [v_used]; first [eexists; split; [left; reflexivity|reflexivity] | eexists; split; [right; left; reflexivity|reflexivity]]. }
  split; [exact C|]. split; [vm_compute; discriminate|]. split; [vm_compute; reflexivity|].
  destruct (sd_open [] d) as [before [sd|e|p]] eqn:O; [|vm_compute in O; discriminate O..]. exists before, sd. split; [reflexivity|].
  pose proof (open_kept consistent [] d ks_open C) as K. rewrite O in K. cbn [fst] in K.
  assert (before = sd_db sd) as <- by (vm_compute in O; apply pair_equal_spec in O as [<- O]; injection O as <-; reflexivity).
  split; [exact K|]. vm_compute in O. apply pair_equal_spec in O as [<- _]. split; [cbn [In d_meta]; auto 6|vm_compute; reflexivity].
Qed.
