(** PropertiesParse.v -- the parser properties C09-C13. *)
From Verif Require Import Base Position Num TokenTypes Errors Token SyntaxTree SpecLex SpecGrammar.
From Verif Require Import ProofsPosition ProofsLex ProofsLex2 ProofsParse ProofsParse2 ProofsParse3 SpecCommands SpecSyntax ProofsSyntax ProofsSyntax2.
From Coq Require Import String.
Local Open Scope list_scope.

(** C09. A token sequence parses to a tree iff the precedence grammar derives that tree from it,
    and the grammar is unambiguous. *)
Theorem C09_parse_iff_grammar : forall ts t, syntax_tree_new ts = Ok t <-> line_tree ts t.
Proof. exact parse_iff. Qed.
Print Assumptions C09_parse_iff_grammar.

Theorem C09_grammar_unambiguous : forall ts t1 t2, line_tree ts t1 -> line_tree ts t2 -> t1 = t2.
Proof. exact line_tree_unique. Qed.
Print Assumptions C09_grammar_unambiguous.

(** The level of every operator of the program, strongest first. *)
Example C09_levels : map binop_level [Exponent; Modulus; Multiply; Divide; Add; Subtract] = [2; 3; 4; 4; 5; 5].
Proof. reflexivity. Qed.
(** [1-2*-3^4^5] is [1 - (2 * ((-3 ^ 4) ^ 5))] *)
Example C09_example : exists ts t,
  tokenize (lit "1-2*-3^4^5") 10 = Ok (PTokens ts) /\ syntax_tree_new ts = Ok t /\ line_tree ts t /\
  t = mkTree None
    (NBin Subtract (mkPos 1 1) (NNum 1 (mkPos 0 1))
       (NBin Multiply (mkPos 3 1) (NNum 2 (mkPos 2 1))
          (NBin Exponent (mkPos 8 1)
             (NBin Exponent (mkPos 6 1) (NUn Negate (mkPos 4 1) (NNum 3 (mkPos 5 1))) (NNum 4 (mkPos 7 1)))
             (NNum 5 (mkPos 9 1))))).
Proof.
  eexists _, _. split; [vm_compute; reflexivity|]. split; [vm_compute; reflexivity|].
  split; [apply parse_iff; vm_compute; reflexivity|reflexivity].
Qed.

(** C10. The parser returns a tree or a syntax error, for every token sequence (no panic and no
    non-termination: running out of model fuel is one of the excluded outcomes). *)
Theorem C10_parser_total : forall ts, (exists t, syntax_tree_new ts = Ok t) \/ (exists e, syntax_tree_new ts = Err e).
Proof.
  intros ts. destruct (syntax_tree_new ts) as [t|e|p] eqn:E; eauto.
  exfalso. exact (parse_total ts p E).
Qed.
Print Assumptions C10_parser_total.
Example C10_example : exists ts e, tokenize (lit "max(1,(2+)*3 4") 10 = Ok (PTokens ts) /\ syntax_tree_new ts = Err e.
Proof. eexists _, _. split; vm_compute; reflexivity. Qed.

(** C11. A line whose first two tokens are a variable and [=] is accepted iff the rest is a
    well-formed expression, and then assigns it to that variable; *)
Theorem C11_assignment : forall x p q rest t,
  syntax_tree_new (tk (TVariable x) p :: tk TAssign q :: rest) = Ok t <->
  exists n, derives 5 rest n /\ t = mkTree (Some (mkPositioned x p)) n.
Proof.
  intros x p q rest t. rewrite parse_iff. split.
  - intros H. inversion H as [? n Hd E|? ? ? ? n Hd]; subst; [|eauto].
    exfalso. eapply (proj1 derives_no_assign); [exact Hd|]. right; left; reflexivity.
  - intros (n & Hd & ->). constructor; exact Hd.
Qed.
Print Assumptions C11_assignment.
(** every other line assigns nothing; *)
Theorem C11_no_assignment : forall ts t, (forall x p q rest, ts <> tk (TVariable x) p :: tk TAssign q :: rest) ->
  syntax_tree_new ts = Ok t -> st_var t = None /\ derives 5 ts (st_root t).
Proof.
  intros ts t Hno H. apply parse_iff in H. destruct H as [ts n Hd|x p q ts n Hd]; [auto|].
  exfalso. eapply Hno. reflexivity.
Qed.
Print Assumptions C11_no_assignment.
(** and [=] in any other place is rejected. *)
Theorem C11_misplaced_assign : forall ts i q, nth_error ts i = Some (tk TAssign q) ->
  i <> 1 \/ (forall x p q' rest, ts <> tk (TVariable x) p :: tk TAssign q' :: rest) ->
  exists e, syntax_tree_new ts = Err e.
Proof.
  intros ts i q Hi Hbad. destruct (syntax_tree_new ts) as [t|e|p] eqn:E; [exfalso|eauto|exfalso; exact (parse_total ts p E)].
  apply parse_iff in E. destruct E as [ts n Hd|x p' q' ts n Hd].
  - eapply (proj1 derives_no_assign); [exact Hd|]. eapply nth_error_In; exact Hi.
  - destruct Hbad as [Hne|Hno]; [|eapply Hno; reflexivity].
    destruct i as [|[|i]]; [discriminate|congruence|]. simpl in Hi.
    eapply (proj1 derives_no_assign); [exact Hd|]. eapply nth_error_In; exact Hi.
Qed.
Print Assumptions C11_misplaced_assign.
Example C11_example : exists ts n, tokenize (lit "$x = 1+2") 10 = Ok (PTokens ts) /\
  syntax_tree_new ts = Ok (mkTree (Some (mkPositioned (lit "$x") (mkPos 0 2))) n) /\
  exists ts' e, tokenize (lit "$x = $y = 2") 10 = Ok (PTokens ts') /\ syntax_tree_new ts' = Err e.
Proof. eexists _, _. split; [vm_compute; reflexivity|]. split; [vm_compute; reflexivity|].
  eexists _, _. split; vm_compute; reflexivity. Qed.

(** C12. The tokens of a line are in order (C02); every subexpression of the parsed tree is derived
    from a contiguous run of them, and its position goes from the start of the first to the end of
    the last token of that run. *)
Theorem C12_node_spans : forall s radix ts t m, (2 <= radix <= 16)%N ->
  tokenize s radix = Ok (PTokens ts) -> syntax_tree_new ts = Ok t -> subnode m (st_root t) ->
  exists pre mid post, ts = pre ++ mid ++ post /\ derives 5 mid m /\ token_span mid (node_position m).
Proof.
  intros s radix ts t m Hr H. apply line_nodes.
  apply tokenize_layout in H as (_ & H & _); [exact H|]. apply radix_ok_spec. lia.
Qed.
Print Assumptions C12_node_spans.
(** Every syntax error lies within the line. *)
Theorem C12_error_in_line : forall s radix ts e, (2 <= radix <= 16)%N ->
  tokenize s radix = Ok (PTokens ts) -> syntax_tree_new ts = Err e ->
  p_start (pd_pos e) + p_width (pd_pos e) <= List.length s.
Proof.
  intros s radix ts e Hr H. apply (parse_err_below (List.length s)).
  apply tokenize_layout in H as (H & _ & _); [|apply radix_ok_spec; lia].
  apply Forall_forall. intros t Ht. apply H in Ht. unfold below, p_end. tauto.
Qed.
Print Assumptions C12_error_in_line.
Example C12_example : exists ts t, tokenize (lit " 1 + (2 * 3)") 10 = Ok (PTokens ts) /\
  syntax_tree_new ts = Ok t /\ node_position (st_root t) = mkPos 1 11 /\
  subnode (NNum 3 (mkPos 10 1)) (st_root t).
Proof.
  eexists _, _. split; [vm_compute; reflexivity|]. split; [vm_compute; reflexivity|]. split; [vm_compute; reflexivity|].
  apply sn_right, sn_paren, sn_right, sn_here.
Qed.
Example C12_error_example : exists ts, tokenize (lit "1  2") 10 = Ok (PTokens ts) /\
  syntax_tree_new ts = Err (mkPositioned MissingOperator (mkPos 1 2)).
Proof. eexists. split; vm_compute; reflexivity. Qed.

(** C13. Putting any operands of an accepted line in parentheses gives an accepted line, which has
    the same effect and outcome for all settings, variables and databases (errors may be reported
    at the moved positions). *)
Theorem C13_parentheses_group : forall ts t ts' t', wrapped_line ts t ts' t' ->
  syntax_tree_new ts = Ok t /\ syntax_tree_new ts' = Ok t' /\
  forall pr a id s, same_outcome (tree_execute pr a t id s) (tree_execute pr a t' id s).
Proof. exact wrapped_line_ok. Qed.
Print Assumptions C13_parentheses_group.
(** Every accepted line can be the unwrapped one: the relation is not empty for any of them. *)
Theorem C13_every_line : forall ts t, syntax_tree_new ts = Ok t -> wrapped_line ts t ts t.
Proof.
  intros ts t H. apply parse_iff in H. destruct H as [ts n Hd|x p q ts n Hd]; constructor; apply wrapped_refl, Hd.
Qed.
Print Assumptions C13_every_line.
(** [1+2*3] and [1+(2*(3))] *)
Example C13_example : exists ts ts' t t',
  tokenize (lit "1+2*3") 10 = Ok (PTokens ts) /\ tokenize (lit "1+(2*(3))") 10 = Ok (PTokens ts') /\
  wrapped_line ts t ts' t' /\
  forall pr a id s, tree_execute pr a t' id s = (s, Ok (7 # 1)).
Proof.
  eexists _, _, _, _. split; [vm_compute; reflexivity|]. split; [vm_compute; reflexivity|]. split.
  - constructor.
    eapply (w_binary 4 Add _ _ [tk (TNumber (1 # 1)) (mkPos 0 1)] _ _ _ [tk (TNumber (1 # 1)) (mkPos 0 1)]); [reflexivity| |].
    + do 5 apply w_weaken. apply w_number.
    + eapply (w_wrap 4 (mkPos 2 1) (mkPos 8 1) _ _
        ([tk (TNumber (2 # 1)) (mkPos 3 1)] ++ tk (TBin Multiply) (mkPos 4 1) ::
           (tk TOpen (mkPos 5 1) :: [tk (TNumber (3 # 1)) (mkPos 6 1)] ++ [tk TClose (mkPos 7 1)]))); [|lia].
      eapply (w_binary 3 Multiply _ _ [tk (TNumber (2 # 1)) (mkPos 2 1)] _ _ _ [tk (TNumber (2 # 1)) (mkPos 3 1)]); [reflexivity| |].
      * do 4 apply w_weaken. apply w_number.
      * apply w_wrap; [|lia]. do 3 apply w_weaken. apply w_number.
  - intros. reflexivity.
Qed.

(** ** C72 *)
(** Whatever the parser complains about is true of the line: the text names the fault and the
    position shows it. *)
Theorem C72_complaint_true : forall s radix ts e, (2 <= radix <= 16)%N ->
  tokenize s radix = Ok (PTokens ts) -> syntax_tree_new ts = Err e ->
  syntax_complaint ts (show_syntax_error (pd_value e)) (pd_pos e).
Proof.
  intros s radix ts e Hr H. apply parse_told. apply tokenize_layout in H as (_ & H & _); [exact H|apply radix_ok_spec; lia].
Qed.
Print Assumptions C72_complaint_true.
(** A line has a fault one can complain about exactly if the grammar gives it no tree. *)
Theorem C72_faulty_iff_no_tree : forall s radix ts, (2 <= radix <= 16)%N ->
  tokenize s radix = Ok (PTokens ts) ->
  (exists text p, syntax_complaint ts text p) <-> (forall t, ~ line_tree ts t).
Proof.
  intros s radix ts Hr H. split.
  - intros (text & p & C) t. eapply complaint_no_tree; eauto.
  - intros N. destruct (syntax_tree_new ts) as [t|e|q] eqn:P.
    + exfalso. apply (N t). apply parse_iff. exact P.
    + eexists _, _. eapply C72_complaint_true; eauto.
    + exfalso. exact (parse_total ts q P).
Qed.
Print Assumptions C72_faulty_iff_no_tree.
Example C72_example :
  (forall line text start width, In (line, text, start, width)
    [("1 + * 2", "Addition Operator (+) is missing a required operand", 2, 1);
     ("(1, 2)", "Unexpected token encountered: Comma", 2, 1);
     ("$x = 1 = 2", "Unexpected token encountered: Assignment Operator (=)", 7, 1);
     ("(3 + (4)", "Mismatched open parenthesis", 0, 1);
     ("3 + 4)", "Mismatched close parenthesis", 5, 1);
     ("2 * ( )", "Empty parentheses", 4, 3);
     ("sqrt -", "Negation Operator (-) is missing a required operand", 5, 1);
     ("abs * 2", "Unexpected token encountered: Multiplication Operator (*)", 4, 1);
     ("max(, 1)", "Comma must follow an operand", 4, 1);
     ("max(1,)", "Comma must be followed by an operand", 5, 1);
     ("2 + min", "Functions without parentheses are assumed to have a single argument, but none was found for Min Function", 4, 3);
     ("(1)  $y", "Missing an operator between two consecutive operands", 3, 2)]%string ->
   exists ts e, tokenize (lit line) 10 = Ok (PTokens ts) /\ syntax_tree_new ts = Err e /\
     show_syntax_error (pd_value e) = lit text /\ pd_pos e = mkPos start width).
Proof.
  intros line text start width H. cbn [In] in H.
  repeat (destruct H as [H|H]; [injection H as <- <- <- <-; eexists _, _; (split; [vm_compute; reflexivity|]); (split; [vm_compute; reflexivity|]); split; vm_compute; reflexivity|]).
  destruct H.
Qed.
