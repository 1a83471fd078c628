(** PropertiesNotation.v -- lines in other radices: C101. *)
From Verif Require Import Base Position Num TokenTypes Errors Token SavedData Variables InputHistory
  SyntaxTree Commands Calculate Editor Sessions Main SpecGrammar SpecEval SpecPrint SpecHistory SpecEditor SpecCalc SpecCommands SpecSession SpecData SpecMain SpecCompose SpecNotation.
From Verif Require Import ProofsParse2 ProofsEval ProofsCalc ProofsCalc4 ProofsPure ProofsCompose ProofsNotation ProofsNotation2
  PropertiesEditor PropertiesCalc PropertiesSession PropertiesMain PropertiesCompose.
From Coq Require Import String List.
Local Open Scope nat_scope.
Local Open Scope list_scope.

(** ** C101 *)
(** Two lines in two radices with the same words and the same numbers get the same reply, if answers are
    given in the same form and the line has an exact result (or a complaint): no root is approximated and the
    program does not crash. *)
Theorem C101_same_reply : forall pr ord1 ord2 x line1 line2 se1 se2 se1' se2' r1 r2 ts1 ts2 t res,
  working_session se1 -> working_session se2 -> same_output (s_args se1) (s_args se2) ->
  is_expression (a_radix (s_args se1)) line1 ts1 -> is_expression (a_radix (s_args se2)) line2 ts2 -> written ts1 = written ts2 ->
  (forall y, mentions ts1 y -> (e_vars (s_env se1) = None <-> e_vars (s_env se2) = None) /\
     forall v, var_value (after_recording se1) y v <-> var_value (after_recording se2) y v) ->
  line_tree ts1 t -> meaning (var_result (after_recording se1)) power_exact (st_root t) res -> res <> Crashes -> digits_kept pr (s_args se1) <> None ->
  calculate pr ord1 x line1 se1 = (se1', r1) -> calculate pr ord2 x line2 se2 = (se2', r2) -> same_reply r1 r2.
Proof. exact notation_in_working_line. Qed.
Print Assumptions C101_same_reply.
(** Every line can be written in every radix in which its numbers have finitely many digits. *)
Theorem C101_rewritten : forall r1 r2 line ts, (2 <= r1 <= 16)%N -> (2 <= r2 <= 16)%N -> is_expression r1 line ts ->
  (forall v p, In (tk (TNumber v) p) ts -> terminates r2 v) ->
  exists line' ts', is_expression r2 line' ts' /\ written ts' = written ts.
Proof. exact line_again. Qed.
Print Assumptions C101_rewritten.
(** Radix 10, and radix 16 with answers in radix 10. *)
Definition hex : args := mkArgs 16 (a_alternate_screen a0) (Some 10%N) (a_precision a0) (a_extra_precision a0) (a_fractional a0) (a_commas a0) (a_upper a0).
Definition hex_session : session := mkSession hex (Some (ih_new true)) (mkEnv (Some []) (Some disk0)).
Example C101_example :
  let line1 := lit "255*2^3+0.5" in let line2 := lit "FF*2^3+0.8" in let se1 := with_line line1 se0 in let se2 := with_line line2 hex_session in
  let ts2 := match tokenize line2 16 with Ok (PTokens ts) => ts | _ => [] end in
  working_session se1 /\ working_session se2 /\ same_output (s_args se1) (s_args se2) /\
  is_expression 10 line1 (tokens_of line1) /\ is_expression 16 line2 ts2 /\ written (tokens_of line1) = written ts2 /\
  (forall y, ~ mentions (tokens_of line1) y) /\
  (exists n, line_tree (tokens_of line1) (mkTree None n) /\ meaning (var_result (after_recording se1)) power_exact n (Value (4081#2))) /\
  digits_kept Debug a0 = Some 9%N /\
  snd (calculate Debug order the_executor line1 se1) = Ok (lit "2040.5") /\ snd (calculate Debug order the_executor line2 se2) = Ok (lit "2040.5").
Proof.
  cbv zeta. split; [apply typed_session; vm_compute; reflexivity|].
  split. { split; [split; [split; discriminate|]; split; [intros r [= <-]; split; discriminate|]; split; reflexivity|]. split; [exact se0_ok|]. split; [intros sd [= <-]; exact disk0_file|].
    split; [intros sd [= <-] []|]. exists true, (type_text 0 (lit "FF*2^3+0.8")). split; [|reflexivity]. apply placed_ok. vm_compute. reflexivity. }
  split; [vm_compute; auto 10|]. split; [vm_compute; reflexivity|]. split; [vm_compute; reflexivity|]. split; [vm_compute; reflexivity|].
  split. { intros y (p & H). vm_compute in H. repeat destruct H as [H|H]; try discriminate; exact H. }
  split. { match goal with |- exists n, line_tree ?l _ /\ _ => let b := eval vm_compute in l in replace l with b by (vm_compute; reflexivity) end.
    eexists. split; [apply parse_iff; vm_compute; reflexivity|].
    eapply (m_binary _ _ _ _ _ _ (2040) (1#2)).
    - eapply (m_binary _ _ _ _ _ _ 255 8); [apply m_number; reflexivity| |apply b_multiply; reflexivity].
      eapply (m_binary _ _ _ _ _ _ 2 3); [apply m_number; reflexivity|apply m_number; reflexivity|]. apply b_power.
      apply (pe_integer _ _ _ 3); [reflexivity|left; discriminate|reflexivity].
    - apply m_number; reflexivity.
    - apply b_add. reflexivity. }
  split; [vm_compute; reflexivity|]. vm_compute. auto.
Qed.
(** The condition on roots is needed: an approximated root is kept to a number of digits of the radix numbers
    are typed in. *)
Example C101_roots_depend_on_radix :
  let line := lit "1000000*1000000*1000000*(sqrt(5)*sqrt(5)-5)" in let line' := lit "F4240*F4240*F4240*(sqrt(5)*sqrt(5)-5)" in
  written (tokens_of line) = written (match tokenize line' 16 with Ok (PTokens ts) => ts | _ => [] end) /\
  snd (calculate Debug order the_executor line (with_line line se0)) <> snd (calculate Debug order the_executor line' (with_line line' hex_session)).
Proof. vm_compute. split; [reflexivity|discriminate]. Qed.
