(** PropertiesMemory.v -- what a program remembers, among other programs (C106). *)
From Verif Require Import Base Position Num TokenTypes Errors Token Operations SavedData Variables InputHistory
  SyntaxTree Commands Calculate Editor Sessions Main Io Together Interleave SpecLex SpecGrammar SpecEval SpecHistory SpecSyntax SpecEditor SpecCalc SpecSession SpecCommands SpecData SpecMain SpecTogether SpecInterleave SpecMemory.
From Verif Require Import ProofsNum ProofsLex ProofsText ProofsCalc ProofsCalc4 ProofsMain ProofsTogether ProofsInterleave ProofsInterleave2 ProofsInterleave3 ProofsInterleave9 ProofsMemory ProofsMemory2
  PropertiesCalc PropertiesEditor PropertiesTogether PropertiesInterleave PropertiesInterleave2.
From Coq Require Import String Lia.
Local Open Scope nat_scope.
Local Open Scope list_scope.

(** ** C106 *)
(** What a program remembers for a variable it still remembers after any turns of any programs, refused calls included, as
    long as every line it submits itself is neither an assignment to the variable nor a /purgevar or /reloadvar of it. *)
Theorem C106_kept : forall pr ord tm first turns d i y v u e,
  (forall i n, iterates (ord i n)) -> Forall proper_turn (first ++ turns) -> made_file d ->
  let w := room_run pr ord the_executor tm first (empty_room d) in
  r_seat w i = Some (Resting u e) -> vs_get (u_vars u) y = Some v -> unaltered pr ord the_executor tm i y turns w ->
  exists s, r_seat (room_run pr ord the_executor tm turns w) i = Some s /\ vs_get (u_vars (state_of s)) y = Some v.
Proof.
  intros pr ord tm first turns d i y v u e Ho P M w Sk G Un. apply Forall_app in P as (Pf & P).
  assert (Sd : sound_room w) by (apply sound_turns; [exact Ho|exact Pf|apply sound_nobody, M]).
  destruct (run_keeps y v pr ord tm i turns Ho w _ P Sd Sk G Un) as (s & Sk' & K). exists s. split; [exact Sk'|]. destruct s as [u' e'|u' t]; [exact K|exact (proj1 K)].
Qed.
Print Assumptions C106_kept.

(** Nothing is remembered from nowhere: a value that a program remembers was in the file, for that variable, at some moment, or
    the program has submitted an assignment to the variable. *)
Theorem C106_origin : forall pr ord tm turns d i y v s,
  (forall i n, iterates (ord i n)) -> Forall proper_turn turns -> made_file d ->
  r_seat (room_run pr ord the_executor tm turns (empty_room d)) i = Some s -> vs_get (u_vars (state_of s)) y = Some v ->
  (exists f, In f (room_files pr ord the_executor tm turns (empty_room d)) /\ on_disk f y v) \/
  submits_assignment pr ord the_executor tm i y turns (empty_room d).
Proof.
  intros pr ord tm turns d i y v s Ho P M Sk G.
  pose proof (run_from (fun y v => (exists f, In f (room_files pr ord the_executor tm turns (empty_room d)) /\ on_disk f y v) \/ submits_assignment pr ord the_executor tm i y turns (empty_room d))
    pr ord tm i turns Ho (empty_room d) P (sound_nobody d M) ltac:(discriminate) (fun f y v I O => or_introl (ex_intro _ f (conj I O))) (fun y v A => or_intror A) s Sk) as K.
  destruct s as [u e|u t]; [exact (K y v G)|exact (proj1 K y v G)].
Qed.
Print Assumptions C106_origin.

(** Program 0 has read $x as 1; program 1 sets it to 7; then program 0 uses it. *)
Definition before7 : list turn := before0 ++ line_turns 0 0 (repeat (Goes 0) 4).
Definition between7 : list turn := types 1 (lit "$x = 7") ++ repeat (Goes 1) 5 ++ types 0 (lit "$x + 2") ++ repeat (Goes 0) 2.
Fixpoint before_enters (i : nat) (done turns : list turn) : list (list turn) :=
  match turns with
  | [] => []
  | Receives j (EvKey KEnter m) :: rest => (if Nat.eqb j i then [done] else []) ++ before_enters i (done ++ [Receives j (EvKey KEnter m)]) rest
  | tn :: rest => before_enters i (done ++ [tn]) rest
  end.
Lemma before_enters_in i turns : forall done before mods after, turns = before ++ Receives i (EvKey KEnter mods) :: after -> In (done ++ before) (before_enters i done turns).
Proof.
  induction turns as [|tn turns IH]; intros done before mods after E; [destruct before; discriminate E|]. destruct before as [|tn0 before]; cbn [app] in E; injection E as -> E.
  - cbn [before_enters]. rewrite Nat.eqb_refl, app_nil_r. left. reflexivity.
  - pose proof (IH (done ++ [tn0]) before mods after E) as K. rewrite <- app_assoc in K. cbn [app] in K. cbn [before_enters].
    destruct tn0 as [j a0 wanted|j ev|j]; try exact K. destruct ev as [k m| | |]; try exact K. destruct k; try exact K. apply in_or_app. right. exact K.
Qed.
Definition submits (w : room) (i : nat) : option (str * N) :=
  match r_seat w i with Some (Resting u Running) => match shown (u_inputs u) with Ok line => Some (line, a_radix (u_args u)) | _ => None end | _ => None end.
Lemma use_leaves : leaves_alone 10 (lit "$x + 2") (lit "$x").
Proof.
  split.
  - intros ts n T (p & q & rest & E & _). unfold is_expression in T. rewrite E in T. vm_compute in T. discriminate T.
  - intros cmd xs (arguments & l & (n & a & T & _) & _). exfalso. vm_compute in T. discriminate T.
Qed.
Example C106_example : Forall proper_turn (before7 ++ between7) /\ made_file empty_db /\ resting (after_turns before7) 0 = true /\
  remembers (after_turns before7) 0 (lit "$x") = Some (1 # 1)%Q /\
  unaltered Debug (fun _ _ => order) the_executor (fun _ => term80) 0 (lit "$x") between7 (after_turns before7) /\
  submits (after_turns (before7 ++ types 1 (lit "$x = 7") ++ repeat (Goes 1) 5 ++ removelast (types 0 (lit "$x + 2")))) 0 = Some (lit "$x + 2", 10%N) /\
  remembers (after_turns (before7 ++ between7)) 0 (lit "$x") = Some (1 # 1)%Q /\ remembers (after_turns (before7 ++ between7)) 1 (lit "$x") = Some (7 # 1)%Q /\
  resting (after_turns (before7 ++ between7)) 0 = true /\
  firstn 3 (last_output (after_turns (removelast (before7 ++ between7))) 0) = print_output false (lit "3").
Proof.
  split. { destruct (two_starts (skipn 2 (before7 ++ between7)) ltac:(vm_compute; reflexivity)) as (P & _). exact P. }
  split; [exact made_empty|]. split; [vm_compute; reflexivity|]. split; [vm_compute; reflexivity|]. split.
  - intros before mods after u line E Sk L. pose proof (before_enters_in 0 between7 [] before mods after E) as I.
    assert (F : Forall (fun b => submits (room_run Debug (fun _ _ => order) the_executor (fun _ => term80) b (after_turns before7)) 0 = Some (lit "$x + 2", 10%N)) (before_enters 0 [] between7)).
    { assert (B : before_enters 0 [] between7 = [types 1 (lit "$x = 7") ++ repeat (Goes 1) 5 ++ removelast (types 0 (lit "$x + 2"))]) by (vm_compute; reflexivity). rewrite B. constructor; [vm_compute; reflexivity|constructor]. }
    rewrite Forall_forall in F. specialize (F _ I). cbn [app] in F. unfold submits in F. rewrite Sk, L in F. injection F as -> ->. exact use_leaves.
  - repeat split; vm_compute; reflexivity.
Qed.
