(** PropertiesOrder.v -- the same keys give the same result: C83. *)
From Verif Require Import Base Position Num TokenTypes Errors Token SavedData Variables InputHistory
  SyntaxTree Commands Calculate Editor Sessions Main SpecEval SpecHistory SpecEditor SpecCalc SpecSession SpecData SpecMain SpecOrder.
From Verif Require Import ProofsCalc4 ProofsData ProofsOrder ProofsOrder2 ProofsOrder3 PropertiesEditor PropertiesCalc PropertiesSession PropertiesMain.
From Coq Require Import String Permutation Lia.
Local Open Scope nat_scope.
Local Open Scope list_scope.

(** The program iterates over hash sets, whose order changes from run to run.  Two runs with the same options, the same
    surroundings and the same keys leave the same file, print the same to stdout and stderr, leave the terminal in the
    same modes and end the same way; what they send to the terminal is the same up to order. *)
Theorem C83_same_outcome : forall pr ord1 ord2 o m evs, (forall n, iterates (ord1 n)) -> (forall n, iterates (ord2 n)) ->
  valid_settings (o_args o) -> made_file (m_file m) -> database_works m ->
  let r1 := main pr ord1 o m evs in let r2 := main pr ord2 o m evs in
  same_but_order r1 r2 /\ Permutation (out_terminal r1) (out_terminal r2).
Proof. exact main_like. Qed.
Print Assumptions C83_same_outcome.
(** What is sent to the terminal is exactly the same, in the same order, if no submitted line is a /reloadvar naming two
    different variables.  Missing for the full claim: those lines ([C83_refuted]). *)
Theorem C83_same_display_partial : forall pr ord1 ord2 tm a db evs, (forall n, iterates (ord1 n)) -> (forall n, iterates (ord2 n)) ->
  valid_settings a -> working_database db ->
  let '(u1, out1, st1) := interactive pr ord1 the_executor tm a db evs in
  let '(u2, out2, st2) := interactive pr ord2 the_executor tm a db evs in
  st1 = st2 /\ submitted u1 = submitted u2 /\
  ((forall line, List.In line (submitted u1) -> ~ reloads_several line) -> out1 = out2).
Proof.
  intros pr ord1 ord2 tm a db evs O1 O2 Ha Hd. pose proof (interactive_like pr ord1 ord2 tm a db evs O1 O2 Ha Hd) as (K1 & K2 & _ & K4).
  destruct (interactive pr ord1 _ _ _ _ _) as [[u1 out1] st1], (interactive pr ord2 _ _ _ _ _) as [[u2 out2] st2]. cbn [fst snd] in *.
  split; [exact K2|]. split; [unfold submitted; destruct K1 as (_ & _ & _ & -> & _); reflexivity|].
  intros N. destruct K4 as [E|(line & Hl & Sv)]; [exact E|destruct (N _ Hl Sv)].
Qed.
Print Assumptions C83_same_display_partial.
(** One line submitted twice from the same state: the same settings, history, variables and file, and the same reply -- but
    for the order of the rows of a /reloadvar of several variables. *)
Theorem C83_same_line : forall pr ord1 ord2 input se, working_session se -> iterates ord1 -> iterates ord2 ->
  let '(se1, r1) := calculate pr ord1 the_executor input se in
  let '(se2, r2) := calculate pr ord2 the_executor input se in
  s_args se1 = s_args se2 /\ s_inputs se1 = s_inputs se2 /\
  (forall y v, remembered (s_env se1) y v <-> remembered (s_env se2) y v) /\
  option_map sd_db (e_db (s_env se1)) = option_map sd_db (e_db (s_env se2)) /\
  (r1 = r2 \/ (reloads_several input /\
     exists rows1 rows2, Permutation rows1 rows2 /\ r1 = Ok (join_rows rows1) /\ r2 = Ok (join_rows rows2))).
Proof. exact line_like. Qed.
Print Assumptions C83_same_line.
(** An expression given on the command line is answered the same in every run, with any settings. *)
Theorem C83_same_one_shot : forall pr ord1 ord2 a input, one_shot pr ord1 a input = one_shot pr ord2 a input.
Proof. exact one_shot_like. Qed.
Print Assumptions C83_same_one_shot.

(** The full claim is false: the rows of /reloadvar come in the order of a hash set (src/commands.rs:265, 275). *)
Definition backwards : list str -> list str := @rev str.
Definition reload_both : list event := typing_lines [lit "$a=1"; lit "$b=2"; lit "/reloadvar $a $b"].
Theorem C83_refuted : exists ord1 ord2 o m evs, (forall n, iterates (ord1 n)) /\ (forall n, iterates (ord2 n)) /\
  valid_settings (o_args o) /\ made_file (m_file m) /\ database_works m /\
  out_terminal (main Debug ord1 o m evs) <> out_terminal (main Debug ord2 o m evs).
Proof.
  exists (fun _ => order), (fun _ => backwards), plain, (machine0 empty_db), reload_both.
  split; [intros n; exact order_ok|]. split; [intros n l; apply Permutation_sym, Permutation_rev|].
  split; [exact a0_ok|]. split; [exists fresh; split; [exists []; split; [intros ? ? ? ? ? []|reflexivity]|reflexivity]|]. split; [intros []|].
  intros E. apply (f_equal (filter (fun c => match c with Print s => str_eqb (firstn 4 s) (lit "Set ") | _ => false end))) in E. vm_compute in E. discriminate E.
Qed.
Print Assumptions C83_refuted.
(** What the two runs print; a line that reloads several variables; lines that do not. *)
Example C83_example :
  let sets ord := filter (fun c => match c with Print s => str_eqb (firstn 4 s) (lit "Set ") | _ => false end) (out_terminal (main Debug (fun _ => ord) plain (machine0 empty_db) reload_both)) in
  sets order = [Print (lit "Set $a to 1"); Print (lit "Set $b to 2")] /\ sets backwards = [Print (lit "Set $b to 2"); Print (lit "Set $a to 1")] /\
  reloads_several (lit "/reloadvar $a $b") /\ ~ reloads_several (lit "/reloadvar $a $a") /\ ~ reloads_several (lit "/purgevar $a $b") /\ ~ reloads_several (lit "$a+$b").
Proof.
  split; [vm_compute; reflexivity|]. split; [vm_compute; reflexivity|].
  assert (V : forall text names, variable_list text names <-> exists l, tokenize_variable_list text = Ok l /\ names = map pd_value l) by exact variable_list_iff.
  split; [|split; [|split]].
  - exists 10%N, (lit "$a $b"), [lit "$a"; lit "$b"], (lit "$a"), (lit "$b"). split; [do 2 eexists; split; [vm_compute; reflexivity|split; vm_compute; reflexivity]|].
    split; [apply V; eexists; split; vm_compute; reflexivity|]. split; [left; reflexivity|]. split; [right; left; reflexivity|]. intros E; vm_compute in E; discriminate E.
  - intros (radix & arguments & names & y1 & y2 & (n & a & T & _ & <-) & L & H1 & H2 & N). unfold tokenize in T. vm_compute in T. injection T as <- <-.
    apply V in L as (l & L & ->). vm_compute in L. injection L as <-. cbn in H1, H2. apply N. destruct H1 as [<-|[<-|[]]], H2 as [<-|[<-|[]]]; reflexivity.
  - intros (radix & arguments & names & y1 & y2 & (n & a & T & E & _) & _). vm_compute in T. injection T as <- <-. vm_compute in E. discriminate E.
  - intros (radix & arguments & names & y1 & y2 & (n & a & T & E & _) & _). vm_compute in T. discriminate T.
Qed.
