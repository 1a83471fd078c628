(** PropertiesUnrelated.v -- unrelated lines can be entered in any order: C111. *)
From Verif Require Import Base Position Num TokenTypes Errors Token SavedData Variables InputHistory
  SyntaxTree Commands Calculate Editor Sessions Main SpecGrammar SpecEval SpecPrint SpecHistory SpecEditor SpecCalc SpecCommands SpecSession SpecData SpecMain SpecCompose SpecUnrelated.
From Verif Require Import ProofsParse2 ProofsEval ProofsEditor4 ProofsCalc ProofsCalc4 ProofsCalc7 ProofsCalc8 ProofsCalc9 ProofsCalc10 ProofsSession2 ProofsRestart3 ProofsPure ProofsCompose ProofsUnrelated
  PropertiesEditor PropertiesCalc PropertiesSession PropertiesMain PropertiesCompose.
From Coq Require Import String Lia List Permutation.
Local Open Scope nat_scope.
Local Open Scope list_scope.

(** ** C111 *)
(** Lines none of which assigns a variable that another one mentions can be entered in any order: each gets
    the same reply, and afterwards the session has the same settings and remembers the same values. *)
Theorem C111_any_order : forall pr ord1 ord2 n1 n2 se lines1 lines2 se1 replies1, (forall n, iterates (ord1 n)) -> (forall n, iterates (ord2 n)) ->
  working_session se -> no_line_begun se ->
  (forall line, In line lines1 -> exists ts, is_expression (a_radix (s_args se)) line ts /\ forall y, uses ts y -> at_hand (s_env se) y) ->
  ForallOrdPairs (unrelated_lines (a_radix (s_args se))) lines1 -> Permutation lines1 lines2 ->
  dialogue pr ord1 the_executor n1 se lines1 se1 replies1 ->
  exists se2 replies2, dialogue pr ord2 the_executor n2 se lines2 se2 replies2 /\ Permutation replies1 replies2 /\
    s_args se1 = s_args se2 /\ forall y v, remembered (s_env se1) y v <-> remembered (s_env se2) y v.
Proof. exact lines_any_order. Qed.
Print Assumptions C111_any_order.

(** Without a database every variable is at hand; and so is one the session remembers. *)
Theorem C111_at_hand : forall s y, e_db s = None \/ (exists v, remembered s y v) -> at_hand s y.
Proof.
  intros s y [N|(w & m & E & G)] v (m' & E' & [H|(H & sd & Es & _)]).
  - exists m'. auto.
  - congruence.
  - exists m'. auto.
  - congruence.
Qed.
Print Assumptions C111_at_hand.

(** Helpers for the examples: the answers of a dialogue, computed. *)
Definition text_of (r : outcome failure str) : option str :=
  match r with Ok s => Some s | Err (InputError m) => Some (lit "Error: " ++ mp_value m) | _ => None end.
Fixpoint answers (lines : list str) (se : session) : session * list (str * option str) :=
  match lines with
  | [] => (se, [])
  | line :: rest => let (se1, r) := calculate Debug order the_executor line (type_in line se) in
                    let (se', more) := answers rest se1 in (se', (line, text_of r) :: more)
  end.
Fixpoint all_said (l : list (str * option str)) : option (list (str * str)) :=
  match l with
  | [] => Some []
  | (line, Some t) :: rest => match all_said rest with Some m => Some ((line, t) :: m) | None => None end
  | _ => None
  end.
Lemma answers_dialogue lines : forall n se replies, all_said (snd (answers lines se)) = Some replies ->
  dialogue Debug (fun _ => order) the_executor n se lines (fst (answers lines se)) replies.
Proof.
  induction lines as [|line lines IH]; intros n se replies H; cbn [answers] in *.
  - injection H as <-. constructor.
  - destruct (calculate Debug order the_executor line (type_in line se)) as [se1 r] eqn:C. specialize (IH (S n) se1).
    destruct (answers lines se1) as [se' more]. cbn [fst snd all_said] in *. destruct (text_of r) as [t|] eqn:Et; [|discriminate].
    destruct (all_said more) as [m|]; [|discriminate]. injection H as <-. econstructor; [exact C| |apply IH; reflexivity].
    unfold text_of in Et. destruct r as [s|[m0|e]|p]; try discriminate; injection Et as <-; constructor.
Qed.
Lemma answers_work lines : forall se, working_session se -> no_line_begun se -> working_session (fst (answers lines se)) /\ no_line_begun (fst (answers lines se)).
Proof.
  induction lines as [|line lines IH]; intros se W R; cbn [answers]; [auto|].
  destruct (calculate Debug order the_executor line (type_in line se)) as [se1 r] eqn:C.
  destruct (working_calculate _ _ _ _ _ _ _ (type_in_works line se W R) order_ok C) as (W1 & _). pose proof (again_at_rest _ _ _ _ _ _ _ C) as R1.
  specialize (IH se1 W1 R1). destruct (answers lines se1) as [se' more]. exact IH.
Qed.
Definition new0 : session := new_session a0 (Some disk0).
Lemma new0_works : working_session new0 /\ no_line_begun new0.
Proof.
  split; [|split; reflexivity]. split; [exact a0_ok|]. split; [exact se0_ok|]. split; [intros sd [= <-]; exact disk0_file|]. split; [intros sd [= <-] []|].
  apply history_new.
Qed.
Definition begun : session := fst (answers [lit "$a = 2"; lit "$b = 1/3"] new0).
Definition three : list str := [lit "$a = $a*$a + 1"; lit "$x = $b*6"; lit "1/($b-$b)"].
Lemma tokens_unrelated radix l1 l2 ts1 ts2 : is_expression radix l1 ts1 -> is_expression radix l2 ts2 -> unrelated ts1 ts2 -> unrelated_lines radix l1 l2.
Proof. intros T1 T2 U us1 us2 H1 H2. unfold is_expression in *. assert (us1 = ts1) as -> by congruence. assert (us2 = ts2) as -> by congruence. exact U. Qed.

Definition fine_line (line : str) : Prop := exists ts, is_expression 10 line ts /\ forall y, uses ts y -> y = [36; 97]%N \/ y = [36; 98]%N.
Lemma three_use : Forall fine_line three.
Proof.
  repeat (apply Forall_cons; [eexists; split; [vm_compute; reflexivity|]; intros y (p & H); cbn in H;
    repeat (destruct H as [H|H]; [try discriminate; injection H as <- _; auto|]); destruct H|]). apply Forall_nil.
Qed.
Lemma three_apart : ForallOrdPairs (unrelated_lines 10) three.
Proof.
  assert (U : forall i j, In (i, j) [(0, 1); (0, 2); (1, 2)] -> unrelated_lines 10 (nth i three []) (nth j three [])).
  { intros i j [H|[H|[H|[]]]]; injection H as <- <-; (eapply tokens_unrelated; [vm_compute; reflexivity..|]); split;
      intros y (p0 & q0 & rest & E) (p & Hin); try discriminate E; injection E; intros _ _ _ <-; cbn in Hin;
      repeat (destruct Hin as [Hin|Hin]; [try discriminate; injection Hin; discriminate|]); destruct Hin. }
  pose proof (U 0 1 ltac:(left; reflexivity)) as U1. pose proof (U 0 2 ltac:(right; left; reflexivity)) as U2. pose proof (U 1 2 ltac:(right; right; left; reflexivity)) as U3.
  unfold three. apply FOP_cons; [exact (Forall_cons _ U1 (Forall_cons _ U2 (Forall_nil _)))|]. apply FOP_cons; [exact (Forall_cons _ U3 (Forall_nil _))|]. apply FOP_cons; [exact (Forall_nil _)|apply FOP_nil].
Qed.
(** Three lines that use what the session remembers -- one of them gets an error -- in two orders. *)
Example C111_example :
  working_session begun /\ no_line_begun begun /\
  (forall line, In line three -> exists ts, is_expression (a_radix (s_args begun)) line ts /\ forall y, uses ts y -> at_hand (s_env begun) y) /\
  ForallOrdPairs (unrelated_lines (a_radix (s_args begun))) three /\
  dialogue Debug (fun _ => order) the_executor 0 begun three (fst (answers three begun))
    [(lit "$a = $a*$a + 1", lit "5"); (lit "$x = $b*6", lit "2"); (lit "1/($b-$b)", lit "Error: Cannot divide by 0")] /\
  dialogue Debug (fun _ => order) the_executor 0 begun (rev three) (fst (answers (rev three) begun))
    [(lit "1/($b-$b)", lit "Error: Cannot divide by 0"); (lit "$x = $b*6", lit "2"); (lit "$a = $a*$a + 1", lit "5")] /\
  (** lines that are not unrelated: the order matters *)
  dialogue Debug (fun _ => order) the_executor 0 begun [lit "$a = $a*2"; lit "$a = $a+1"] (fst (answers [lit "$a = $a*2"; lit "$a = $a+1"] begun))
    [(lit "$a = $a*2", lit "4"); (lit "$a = $a+1", lit "5")] /\
  dialogue Debug (fun _ => order) the_executor 0 begun [lit "$a = $a+1"; lit "$a = $a*2"] (fst (answers [lit "$a = $a+1"; lit "$a = $a*2"] begun))
    [(lit "$a = $a+1", lit "3"); (lit "$a = $a*2", lit "6")] /\
  ~ unrelated (tokens_of (lit "$a = $a*2")) (tokens_of (lit "$a = $a+1")).
Proof.
  destruct new0_works as (W0 & R0). destruct (answers_work [lit "$a = 2"; lit "$b = 1/3"] new0 W0 R0) as (W & R). split; [exact W|]. split; [exact R|].
  assert (Ea : a_radix (s_args begun) = 10%N) by (vm_compute; reflexivity).
  assert (Ha : at_hand (s_env begun) [36;97]%N) by (apply C111_at_hand; right; exists 2%Q; apply mem_remembered; vm_compute; reflexivity).
  assert (Hb : at_hand (s_env begun) [36;98]%N) by (apply C111_at_hand; right; exists (1#3)%Q; apply mem_remembered; vm_compute; reflexivity).
  rewrite Ea. split.
  { intros line Hl. destruct (proj1 (Forall_forall _ _) three_use line Hl) as (ts & T & U). exists ts. split; [exact T|]. intros y Hy.
    destruct (U y Hy) as [->| ->]; assumption. }
  split.
  { exact three_apart. }
  split; [apply answers_dialogue; vm_compute; reflexivity|]. split; [apply answers_dialogue; vm_compute; reflexivity|].
  split; [apply answers_dialogue; vm_compute; reflexivity|]. split; [apply answers_dialogue; vm_compute; reflexivity|].
  intros [H _]. apply (H (lit "$a")).
  - do 3 eexists. vm_compute. reflexivity.
  - eexists. vm_compute. left. reflexivity.
Qed.
