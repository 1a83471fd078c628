(** PropertiesCompose.v -- parts of lines can be replaced by others of the same value: C94-C96. *)
From Verif Require Import Base Position Num TokenTypes Errors Token SavedData Variables InputHistory
  SyntaxTree Commands Calculate Editor Sessions Main SpecGrammar SpecEval SpecPrint SpecHistory SpecEditor SpecCalc SpecCommands SpecSession SpecData SpecMain SpecCompose.
From Verif Require Import ProofsParse2 ProofsEval ProofsEditor4 ProofsCalc ProofsCalc4 ProofsCalc7 ProofsCalc8 ProofsCalc9 ProofsCalc10 ProofsSession2 ProofsPure ProofsCompose ProofsCompose2
  PropertiesEditor PropertiesCalc PropertiesSession PropertiesMain.
From Coq Require Import String Lia List.
Local Open Scope nat_scope.
Local Open Scope list_scope.

(** Helpers for the examples. *)
Definition tokens_of (line : str) : list ptoken := match tokenize line 10 with Ok (PTokens ts) => ts | _ => [] end.
Lemma tree_derives ts n : syntax_tree_new ts = Ok (mkTree None n) -> derives 5 ts n.
Proof. intros H. apply parse_iff in H. inversion H; subst. assumption. Qed.
Lemma come_to pr a s ts v : match syntax_tree_new ts with Ok (mkTree None n) => snd (exec pr a n s) = Ok v | _ => False end -> comes_to pr a s ts v.
Proof.
  destruct (syntax_tree_new ts) as [[[x|] n]|e|p] eqn:E; try contradiction. intros H. exists n, (fst (exec pr a n s)). split; [apply tree_derives; exact E|].
  destruct (exec pr a n s). cbn in *. congruence.
Qed.
Lemma typed_session line : placed (type_text 0 line) (ih_new true) = true -> working_session (with_line line se0).
Proof.
  intros H. split; [exact a0_ok|]. split; [exact se0_ok|]. split; [intros sd [= <-]; exact disk0_file|]. split; [intros sd [= <-] []|].
  exists true, (type_text 0 line). split; [|reflexivity]. apply placed_ok. exact H.
Qed.
Lemma typed_history acts : forall h, history_of_session h -> well_placed acts h -> history_of_session (hend acts h).
Proof.
  induction acts as [|a acts IH]; intros h Hh W; [exact Hh|]. destruct W as [W1 W2]. cbn [hend]. apply IH; [|exact W2]. apply history_step; [exact Hh|exact W1].
Qed.
Lemma working_typed line se : working_session se -> match s_inputs se with Some h => placed (type_text 0 line) h = true | None => False end ->
  working_session (with_line line se).
Proof.
  intros (A & B & C & D & E) P. unfold with_line. destruct (s_inputs se) as [h|] eqn:Eh; [|contradiction].
  split; [exact A|]. split; [exact B|]. split; [exact C|]. split; [exact D|]. cbn [s_inputs]. apply typed_history; [exact E|apply placed_ok; exact P].
Qed.

(** ** C94 *)
(** In an expression or the right side of an assignment, a number or variable can be replaced -- at any
    number of its occurrences -- by a parenthesised expression that has the same value: the reply is the
    same (a complaint may point at another place). *)
Theorem C94_replace : forall pr ord ord' x line line' se se1 se2 r1 r2 ts ts' t p es v,
  working_session se -> is_expression (a_radix (s_args se)) line ts -> is_expression (a_radix (s_args se)) line' ts' ->
  simple t -> comes_to pr (s_args se) (after_recording se) [tk t p] v -> comes_to pr (s_args se) (after_recording se) es v ->
  replaced_in_line t (in_parentheses (written es)) ts ts' ->
  calculate pr ord x line se = (se1, r1) -> calculate pr ord' x line' se = (se2, r2) -> same_reply r1 r2.
Proof. exact replace_in_working_line. Qed.
Print Assumptions C94_replace.
(** An assigned variable stands for the expression it was assigned, as long as it and the variables of that
    expression keep their values and the settings are the same. *)
Theorem C94_assigned : forall pr ord ord1 ord2 x line0 line line' se se1 se2 se3 se4 text r1 r2 y p q es n ts ts',
  working_session se -> is_expression (a_radix (s_args se)) line0 (tk (TVariable y) p :: tk TAssign q :: es) -> derives 5 es n -> ~ mentions es y ->
  calculate pr ord x line0 se = (se1, Ok text) ->
  working_session se2 -> s_args se2 = s_args se ->
  (forall z v, z = y \/ mentions es z -> (var_value (s_env se1) z v <-> var_value (after_recording se2) z v)) ->
  is_expression (a_radix (s_args se2)) line ts -> is_expression (a_radix (s_args se2)) line' ts' ->
  replaced_in_line (TVariable y) (in_parentheses (written es)) ts ts' ->
  calculate pr ord1 x line se2 = (se3, r1) -> calculate pr ord2 x line' se2 = (se4, r2) -> same_reply r1 r2.
Proof. exact assigned_stands. Qed.
Print Assumptions C94_assigned.
Example C94_example :
  let line := lit "$z = 7*7-2" in let line' := lit "$z = (3+4)*7-2" in let se := with_line line se0 in
  working_session se /\ is_expression 10 line (tokens_of line) /\ is_expression 10 line' (tokens_of line') /\
  simple (TNumber 7) /\ comes_to Debug a0 (after_recording se) [tk (TNumber 7) (mkPos 0 1)] 7 /\
  comes_to Debug a0 (after_recording se) (tokens_of (lit "3+4")) 7 /\
  replaced_in_line (TNumber 7) (in_parentheses (written (tokens_of (lit "3+4")))) (tokens_of line) (tokens_of line') /\
  snd (calculate Debug order the_executor line se) = Ok (lit "47") /\ snd (calculate Debug order the_executor line' se) = Ok (lit "47") /\
  (** without parentheses it is another line *)
  snd (calculate Debug order the_executor (lit "$z = 3+4*7-2") se) = Ok (lit "29").
Proof.
  cbv zeta. split; [apply typed_session; vm_compute; reflexivity|]. split; [vm_compute; reflexivity|]. split; [vm_compute; reflexivity|].
  split; [left; eexists; reflexivity|]. split; [apply come_to; vm_compute; reflexivity|]. split; [apply come_to; vm_compute; reflexivity|].
  split.
  - match goal with |- replaced_in_line _ _ ?l ?l' => let a := eval vm_compute in l in let b := eval vm_compute in l' in
      replace l with a by (vm_compute; reflexivity); replace l' with b by (vm_compute; reflexivity) end.
    eapply rl_assignment; [apply tree_derives; vm_compute; reflexivity|]. vm_compute. 
    refine (rp_change _ [_;_;_;_;_] _ _ _). repeat constructor.
  - vm_compute. auto.
Qed.
Example C94_assigned_example :
  let line0 := lit "$y = 1/3" in let line := lit "$y*6^$y" in let line' := lit "$y*6^(1/3)" in
  let se := with_line line0 se0 in let se1 := fst (calculate Debug order the_executor line0 se) in let se2 := with_line line se1 in
  working_session se /\ snd (calculate Debug order the_executor line0 se) = Ok (lit "0.33333") /\ working_session se2 /\ s_args se2 = s_args se /\
  (forall z v, z = lit "$y" -> (var_value (s_env se1) z v <-> var_value (after_recording se2) z v)) /\
  (forall z, ~ mentions (tokens_of (lit "1/3")) z) /\
  replaced_in_line (TVariable (lit "$y")) (in_parentheses (written (tokens_of (lit "1/3")))) (tokens_of line) (tokens_of line') /\
  snd (calculate Debug order the_executor line se2) = Ok (lit "0.60571") /\ snd (calculate Debug order the_executor line' se2) = Ok (lit "0.60571").
Proof.
  cbv zeta. split; [apply typed_session; vm_compute; reflexivity|]. split; [vm_compute; reflexivity|].
  split. { apply working_typed; [|vm_compute; reflexivity].
    destruct (calculate Debug order the_executor (lit "$y = 1/3") (with_line (lit "$y = 1/3") se0)) as [s r] eqn:C. cbn [fst].
    refine (proj1 (working_calculate _ _ _ _ _ _ _ (typed_session (lit "$y = 1/3") _) order_ok C)). vm_compute. reflexivity. }
  split; [vm_compute; reflexivity|]. split.
  { intros z v ->. match goal with |- var_value ?s _ _ <-> var_value ?s' _ _ => assert (E : e_vars s = e_vars s') by (vm_compute; reflexivity);
      assert (G : exists m w, e_vars s = Some m /\ vs_get m (lit "$y") = Some w) by (do 2 eexists; split; vm_compute; reflexivity) end.
    destruct G as (m & w & G1 & G2). split; intros (m' & E1 & H); exists m'; rewrite <- ?E in *; (split; [congruence|]); left;
      (destruct H as [H|[H _]]; [exact H|congruence]). }
  split. { intros z (p & H). vm_compute in H. repeat destruct H as [H|H]; try discriminate; exact H. }
  split.
  - match goal with |- replaced_in_line _ _ ?l ?l' => let a := eval vm_compute in l in let b := eval vm_compute in l' in
      replace l with a by (vm_compute; reflexivity); replace l' with b by (vm_compute; reflexivity) end.
    eapply rl_expression; [apply tree_derives; vm_compute; reflexivity|]. vm_compute.
    do 4 apply rp_keep. refine (rp_change _ [_;_;_;_;_] [] [] _). constructor.
  - vm_compute. auto.
Qed.

(** ** C95 *)
(** The reply to an expression line (or assignment) depends on the settings and on the values of the variables
    that occur in the line, and on nothing else: not on other variables, not on whether a value is in memory or
    only on disk, not on the lines entered before, the scrollback position or the database otherwise, nor on
    the order in which a map of variables is walked. *)
Theorem C95_reply_depends_only_on : forall pr ord1 ord2 x line se1 se2 se1' se2' r1 r2 ts, working_session se1 -> working_session se2 -> s_args se1 = s_args se2 ->
  is_expression (a_radix (s_args se1)) line ts ->
  (forall y, mentions ts y -> (e_vars (s_env se1) = None <-> e_vars (s_env se2) = None) /\
     forall v, var_value (after_recording se1) y v <-> var_value (after_recording se2) y v) ->
  calculate pr ord1 x line se1 = (se1', r1) -> calculate pr ord2 x line se2 = (se2', r2) -> r1 = r2.
Proof. exact reply_depends. Qed.
Print Assumptions C95_reply_depends_only_on.
(** Two sessions that differ in history, database and other variables. *)
Example C95_example :
  let line := lit "$x^2+1/3" in
  let se1 := with_line line (afterwards [lit "$x=3"] se0) in
  let se2 := with_line line (mkSession a0 (Some (ih_new false)) (mkEnv (Some [(lit "$q", 1#2); (lit "$x", 3)]%Q) None)) in
  working_session se1 /\ working_session se2 /\ s_args se1 = s_args se2 /\ is_expression 10 line (tokens_of line) /\
  (forall y, mentions (tokens_of line) y -> y = lit "$x") /\
  (forall v, var_value (after_recording se1) (lit "$x") v <-> var_value (after_recording se2) (lit "$x") v) /\
  snd (calculate Debug order the_executor line se1) = Ok (lit "9.33333") /\ snd (calculate Debug order the_executor line se2) = Ok (lit "9.33333").
Proof.
  cbv zeta. split.
  { apply working_typed; [|vm_compute; reflexivity]. unfold afterwards, enter. cbn [fold_left].
    destruct (calculate Debug order the_executor (lit "$x=3") (with_line (lit "$x=3") se0)) as [s r] eqn:C. cbn [fst].
    refine (proj1 (working_calculate _ _ _ _ _ _ _ (typed_session (lit "$x=3") _) order_ok C)). vm_compute. reflexivity. }
  split.
  { apply working_typed; [|vm_compute; reflexivity]. split; [exact a0_ok|]. split.
    - split; [|discriminate]. intros m y v E H. cbn [s_env e_vars] in E. injection E as <-. unfold vs_get in H. cbn [find fst snd] in H.
      repeat match type of H with context [str_eqb ?a ?b] => destruct (str_eqb a b) end; cbn in H; try discriminate H; injection H as <-; reflexivity.
    - split; [intros sd [=]|]. split; [intros sd [=]|]. cbn. exists false, []. split; [exact I|reflexivity]. }
  split; [vm_compute; reflexivity|]. split; [vm_compute; reflexivity|]. split.
  { intros y (p & H). vm_compute in H. repeat (destruct H as [H|H]; [try discriminate; injection H as <- _; reflexivity|]). destruct H. }
  split; [|vm_compute; auto].
  intros v. split; (intros (m & E & H); vm_compute in E; injection E as <-; eexists; split; [vm_compute; reflexivity|]); left; (destruct H as [H|[H _]]; [exact H|discriminate H]).
Qed.

(** ** C96 *)
(** A line without variables gets from the one-shot mode ([--input]) exactly what it gets in an interactive
    session with the same settings, whatever that session did before: the answer on standard output, an error
    on standard error, and a crash where the session crashes. *)
Theorem C96_one_shot_agrees : forall pr ord ord' o m evs line se se' r ts, o_input o = Some line -> valid_settings (o_args o) ->
  working_session se -> s_args se = o_args o -> is_expression (a_radix (o_args o)) line ts -> (forall y, ~ mentions ts y) ->
  calculate pr ord the_executor line se = (se', r) ->
  let out := main pr ord' o m evs in
  match r with
  | Ok text => out_stdout out = text ++ [c_newline] /\ out_stderr out = []
  | Err e => exists text, reply_text (Err e) text /\ out_stdout out = [] /\ out_stderr out = text ++ [c_newline]
  | Panic _ => exit_status (out_ending out) = Some 101%N
  end.
Proof. exact one_shot_agrees. Qed.
Print Assumptions C96_one_shot_agrees.
Example C96_example :
  let reply line := snd (calculate Debug order the_executor (lit line) (with_line (lit line) (afterwards [lit "$x=3"] se0))) in
  let run line := let out := main Debug (fun _ => order) (mkOptions a0 (Some (lit line)) false) (machine0 empty_db) [] in
    (out_stdout out, out_stderr out, exit_status (out_ending out)) in
  reply "2^(1/2)"%string = Ok (lit "1.41421") /\ run "2^(1/2)"%string = (lit "1.41421" ++ [c_newline], [], Some 0%N) /\
  (exists m, reply "1/(2-2)"%string = Err (InputError m)) /\ run "1/(2-2)"%string = ([], lit "Error: Cannot divide by 0" ++ [c_newline], Some 0%N) /\
  (exists p, reply "1%0"%string = Panic p) /\ run "1%0"%string = ([], [], Some 101%N) /\
  working_session (with_line (lit "2^(1/2)") (afterwards [lit "$x=3"] se0)) /\
  is_expression 10 (lit "2^(1/2)") (tokens_of (lit "2^(1/2)")) /\ (forall y, ~ mentions (tokens_of (lit "2^(1/2)")) y).
Proof.
  cbv zeta. split; [vm_compute; reflexivity|]. split; [vm_compute; reflexivity|]. split; [eexists; vm_compute; reflexivity|]. split; [vm_compute; reflexivity|].
  split; [eexists; vm_compute; reflexivity|]. split; [vm_compute; reflexivity|]. split.
  { apply working_typed; [|vm_compute; reflexivity]. unfold afterwards, enter. cbn [fold_left].
    destruct (calculate Debug order the_executor (lit "$x=3") (with_line (lit "$x=3") se0)) as [s r] eqn:C. cbn [fst].
    refine (proj1 (working_calculate _ _ _ _ _ _ _ (typed_session (lit "$x=3") _) order_ok C)). vm_compute. reflexivity. }
  split; [vm_compute; reflexivity|]. intros y (p & H). vm_compute in H. repeat destruct H as [H|H]; try discriminate; exact H.
Qed.
