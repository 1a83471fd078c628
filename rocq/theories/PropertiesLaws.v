(** PropertiesLaws.v -- the laws of arithmetic hold for what is typed: C100. *)
From Verif Require Import Base Position Num TokenTypes Errors Token SavedData Variables InputHistory
  SyntaxTree Commands Calculate Editor Sessions Main SpecGrammar SpecEval SpecPrint SpecHistory SpecEditor SpecCalc SpecCommands SpecSession SpecData SpecMain SpecCompose SpecLaws.
From Verif Require Import ProofsParse2 ProofsEval ProofsCalc ProofsCalc4 ProofsPure ProofsCompose ProofsLaws ProofsLaws2 ProofsLaws3 PropertiesEditor PropertiesCalc PropertiesSession PropertiesMain PropertiesCompose.
From Coq Require Import String List.
Local Open Scope nat_scope.
Local Open Scope list_scope.

(** ** C100 *)
(** Two parenthesised expressions of the same value can be interchanged anywhere in a line: the reply is the
    same ([h] marks the places; a complaint may point at another place). *)
Theorem C100_interchange : forall pr ord ord' x line line' se se1 se2 r1 r2 ts ts' h outline es es' v,
  working_session se -> is_expression (a_radix (s_args se)) line ts -> is_expression (a_radix (s_args se)) line' ts' ->
  comes_to pr (s_args se) (after_recording se) es v -> comes_to pr (s_args se) (after_recording se) es' v ->
  ~ mentions es h -> ~ mentions es' h ->
  line_with h outline (written es) ts -> line_with h outline (written es') ts' ->
  calculate pr ord x line se = (se1, r1) -> calculate pr ord' x line' se = (se2, r2) -> same_reply r1 r2.
Proof. exact interchange_in_working_line. Qed.
Print Assumptions C100_interchange.
(** A formula over typed expressions that have values can be exchanged for any other that stands for the same
    rational number. *)
Theorem C100_identities : forall pr ord ord' x line line' se se1 se2 r1 r2 ts ts' h outline (text : nat -> str) part val f g q,
  working_session se -> is_expression (a_radix (s_args se)) line ts -> is_expression (a_radix (s_args se)) line' ts' ->
  (forall i, is_expression (a_radix (s_args se)) (text i) (part i) /\ comes_to pr (s_args se) (after_recording se) (part i) (val i) /\ ~ mentions (part i) h) ->
  denotes val f q -> denotes val g q -> (has_powers f \/ has_powers g -> digits_kept pr (s_args se) <> None) ->
  line_with h outline (formula_text (fun i => written (part i)) f) ts -> line_with h outline (formula_text (fun i => written (part i)) g) ts' ->
  calculate pr ord x line se = (se1, r1) -> calculate pr ord' x line' se = (se2, r2) -> same_reply r1 r2.
Proof. exact identity_in_working_line. Qed.
Print Assumptions C100_identities.
(** The laws of [SpecLaws.law] hold for whatever is typed for their parts, anywhere in a line. *)
Theorem C100_laws : forall pr ord ord' x line line' se se1 se2 r1 r2 ts ts' h outline ta tb tc a b c va vb vc f g,
  working_session se -> is_expression (a_radix (s_args se)) line ts -> is_expression (a_radix (s_args se)) line' ts' ->
  is_expression (a_radix (s_args se)) ta a -> comes_to pr (s_args se) (after_recording se) a va -> ~ mentions a h ->
  is_expression (a_radix (s_args se)) tb b -> comes_to pr (s_args se) (after_recording se) b vb -> ~ mentions b h ->
  is_expression (a_radix (s_args se)) tc c -> comes_to pr (s_args se) (after_recording se) c vc -> ~ mentions c h ->
  law va vb vc f g -> (has_powers f \/ has_powers g -> digits_kept pr (s_args se) <> None) ->
  line_with h outline (formula_text (three (written a) (written b) (written c)) f) ts ->
  line_with h outline (formula_text (three (written a) (written b) (written c)) g) ts' ->
  calculate pr ord x line se = (se1, r1) -> calculate pr ord' x line' se = (se2, r2) -> same_reply r1 r2.
Proof. exact law_in_working_line. Qed.
Print Assumptions C100_laws.
(** [7 * ((1/3) % (-(2/9))) - 2] and [7 * ((1/3) % (2/9)) - 2], by the law that the sign of the divisor does
    not matter. *)
Example C100_example :
  let line := lit "7*((1/3)%(-(2/9)))-2" in let line' := lit "7*((1/3)%(2/9))-2" in let outline := tokens_of (lit "7*$h-2") in
  let a := tokens_of (lit "1/3") in let b := tokens_of (lit "2/9") in let se := with_line line se0 in
  let text := three (written a) (written b) (written b) in
  working_session se /\ is_expression 10 line (tokens_of line) /\ is_expression 10 line' (tokens_of line') /\
  is_expression 10 (lit "1/3") a /\ comes_to Debug a0 (after_recording se) a (1#3) /\ ~ mentions a (lit "$h") /\
  is_expression 10 (lit "2/9") b /\ comes_to Debug a0 (after_recording se) b (2#9) /\ ~ mentions b (lit "$h") /\
  law (1#3) (2#9) (2#9) (Remainder (Part 0) (Opposite (Part 1))) (Remainder (Part 0) (Part 1)) /\
  line_with (lit "$h") outline (formula_text text (Remainder (Part 0) (Opposite (Part 1)))) (tokens_of line) /\
  line_with (lit "$h") outline (formula_text text (Remainder (Part 0) (Part 1))) (tokens_of line') /\
  snd (calculate Debug order the_executor line se) = Ok (lit "-1.22222") /\
  snd (calculate Debug order the_executor line' se) = Ok (lit "-1.22222").
Proof.
  cbv zeta. split; [apply typed_session; vm_compute; reflexivity|]. split; [vm_compute; reflexivity|]. split; [vm_compute; reflexivity|].
  split; [vm_compute; reflexivity|]. split; [apply come_to; vm_compute; reflexivity|].
  split. { intros (p & H). vm_compute in H. repeat destruct H as [H|H]; try discriminate; exact H. }
  split; [vm_compute; reflexivity|]. split; [apply come_to; vm_compute; reflexivity|].
  split. { intros (p & H). vm_compute in H. repeat destruct H as [H|H]; try discriminate; exact H. }
  split. { apply l_remainder_sign. discriminate. }
  split. { eapply lw_expression; [apply tree_derives; vm_compute; reflexivity|vm_compute; reflexivity]. }
  split. { eapply lw_expression; [apply tree_derives; vm_compute; reflexivity|vm_compute; reflexivity]. }
  vm_compute. auto.
Qed.
(** The condition of the laws of powers that exponents are whole is needed: [2^(1/2) * 2^(1/2) - 2] is not what
    [2^(1/2+1/2) - 2] is, roots being approximations. *)
Example C100_roots_are_not_exact :
  let line := lit "10^11*(((2)^(1/2))*((2)^(1/2))-2)" in let line' := lit "10^11*((2)^((1/2)+(1/2))-2)" in
  snd (calculate Debug order the_executor line' (with_line line' se0)) = Ok (lit "0") /\
  snd (calculate Debug order the_executor line (with_line line se0)) <> Ok (lit "0").
Proof. vm_compute. split; [reflexivity|discriminate]. Qed.
