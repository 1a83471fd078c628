(** PropertiesInterleave2.v -- C92, C93: commands and the file, when programs are interleaved at every database call. *)
From Verif Require Import Base SpecDecimal Position Num TokenTypes Errors Token SavedData Variables InputHistory
  SyntaxTree Commands Calculate Editor Sessions Main Io Together Interleave SpecGrammar SpecEval SpecHistory SpecEditor SpecCalc SpecSession SpecCommands SpecData SpecMain SpecTogether SpecInterleave.
From Verif Require Import ProofsNum ProofsLex ProofsText ProofsDb4 ProofsCalc3 ProofsCalc4 ProofsCalc8 ProofsCommands ProofsData ProofsMain ProofsInterleave ProofsInterleave2 ProofsInterleave3 ProofsInterleave4 ProofsInterleave5 ProofsInterleave6 ProofsInterleave7 ProofsInterleave8 ProofsInterleave9 ProofsInterleave10 ProofsInterleave11 ProofsInterleave12 PropertiesCalc PropertiesEditor PropertiesSession PropertiesMain PropertiesInterleave.
From Coq Require Import String Permutation Lia.
Local Open Scope nat_scope.
Local Open Scope list_scope.

(** ** C92 *)
(** /reloadvar, whatever others do meanwhile: every listed variable is read once, in some order, each reading true of the
    file at a moment between Enter and the answer, the moments in that order; the answer reports the readings, and the program
    then remembers what it read, and what it remembered about everything else.  (The runtime error is C91's.) *)
Theorem C92_reloadvar : forall pr ord tm before between d i mods u u' e out line arguments,
  (forall i n, iterates (ord i n)) -> Forall proper_turn (before ++ between) -> Forall calm_turn (before ++ between) -> made_file d ->
  let w := room_run pr ord the_executor tm before (empty_room d) in
  processes pr ord the_executor tm w i mods between u u' e out -> shown (u_inputs u) = Ok line ->
  is_command (a_radix (u_args u)) line (lit "reloadvar") arguments ->
  exists r, replied u u' e out r /\ u_args u' = u_args u /\
    ((exists names rds, variable_list arguments names /\ each_once names (map fst rds) /\
        read_in_turn (room_files pr ord the_executor tm (Receives i (EvKey KEnter mods) :: between) w) rds /\
        (forall y, vs_get (u_vars u') y = last_read rds y (vs_get (u_vars u) y)) /\
        (r = Ok (join_rows (map reading_row rds)) \/ exists re, r = Err (RuntimeError re))) \/
     ((forall names, ~ variable_list arguments names) /\ (exists msg, r = Err (InputError msg)) /\ u_vars u' = u_vars u)).
Proof.
  intros pr ord tm before between d i mods u u' e out line arguments Ho P C M w. destruct (reached pr ord the_executor tm Ho before between d P C M) as (Cw & Pb & Cb). intros Pr L Hc.
  exact (reload_interleaved pr ord tm Ho w i mods between u u' e out line arguments Cw Pb Cb Pr L Hc).
Qed.
Print Assumptions C92_reloadvar.
(** /purgevar forgets the listed variables and no others, removes each of them from the file in one of its turns, and always
    says "Done". *)
Theorem C92_purgevar : forall pr ord tm before between d i mods u u' e out line arguments,
  (forall i n, iterates (ord i n)) -> Forall proper_turn (before ++ between) -> Forall calm_turn (before ++ between) -> made_file d ->
  let w := room_run pr ord the_executor tm before (empty_room d) in
  processes pr ord the_executor tm w i mods between u u' e out -> shown (u_inputs u) = Ok line ->
  is_command (a_radix (u_args u)) line (lit "purgevar") arguments ->
  exists r, replied u u' e out r /\ u_args u' = u_args u /\
    ((exists names, variable_list arguments names /\ r = Ok (lit "Done") /\
        (forall y, (In y names -> vs_get (u_vars u') y = None) /\ (~ In y names -> vs_get (u_vars u') y = vs_get (u_vars u) y)) /\
        forall y, In y names -> exists first rest, line_turns i mods between = first ++ Goes i :: rest /\
          not_on_disk (r_file (room_run pr ord the_executor tm (first ++ [Goes i]) w)) y) \/
     ((forall names, ~ variable_list arguments names) /\ (exists msg, r = Err (InputError msg)) /\ u_vars u' = u_vars u)).
Proof.
  intros pr ord tm before between d i mods u u' e out line arguments Ho P C M w. destruct (reached pr ord the_executor tm Ho before between d P C M) as (Cw & Pb & Cb). intros Pr L Hc.
  exact (purge_interleaved pr ord tm Ho w i mods between u u' e out line arguments Cw Pb Cb Pr L Hc).
Qed.
Print Assumptions C92_purgevar.
(** /histcap says the capacity of a moment between Enter and the answer, or the capacity is the given one when the answer
    appears. *)
Theorem C92_histcap : forall pr ord tm before between d i mods u u' e out line arguments,
  (forall i n, iterates (ord i n)) -> Forall proper_turn (before ++ between) -> Forall calm_turn (before ++ between) -> made_file d ->
  let w := room_run pr ord the_executor tm before (empty_room d) in
  processes pr ord the_executor tm w i mods between u u' e out -> shown (u_inputs u) = Ok line ->
  is_command (a_radix (u_args u)) line (lit "histcap") arguments ->
  exists r, replied u u' e out r /\ u_args u' = u_args u /\ u_vars u' = u_vars u /\
    ((integers arguments [] /\ exists d0 cap, In d0 (room_files pr ord the_executor tm (Receives i (EvKey KEnter mods) :: between) w) /\
        capacity d0 cap /\ r = Ok (in_decimal cap)) \/
     (exists n, integers arguments [n] /\ (1 <= n)%Z /\ r = Ok (lit "Done") /\
        capacity (r_file (room_run pr ord the_executor tm (line_turns i mods between) w)) n) \/
     (~ integers arguments [] /\ (forall n, integers arguments [n] -> (n < 1)%Z) /\ exists msg, r = Err (InputError msg))).
Proof.
  intros pr ord tm before between d i mods u u' e out line arguments Ho P C M w. destruct (reached pr ord the_executor tm Ho before between d P C M) as (Cw & Pb & Cb). intros Pr L Hc.
  exact (histcap_interleaved pr ord tm Ho w i mods between u u' e out line arguments Cw Pb Cb Pr L Hc).
Qed.
Print Assumptions C92_histcap.
(** Any other command, and a line that is neither an expression nor a command, is answered, and changes the settings, exactly
    as when the program is alone, on whatever file. *)
Theorem C92_other_lines : forall pr ord tm before between d i mods u u' e out line,
  (forall i n, iterates (ord i n)) -> Forall proper_turn (before ++ between) -> Forall calm_turn (before ++ between) -> made_file d ->
  let w := room_run pr ord the_executor tm before (empty_room d) in
  processes pr ord the_executor tm w i mods between u u' e out -> shown (u_inputs u) = Ok line ->
  (forall ts, ~ is_expression (a_radix (u_args u)) line ts) ->
  (forall name arguments, is_command (a_radix (u_args u)) line name arguments -> ~ In name [lit "reloadvar"; lit "purgevar"; lit "histcap"]) ->
  exists r, replied u u' e out r /\ u_vars u' = u_vars u /\
    forall sd, program_file (sd_db sd) -> ~ In true (sd_faults sd) ->
      let answer := calculate pr (ord i (u_count u)) the_executor line (mkSession (u_args u) (Some (u_inputs u)) (mkEnv (Some (u_vars u)) (Some sd))) in
      snd answer = r /\ s_args (fst answer) = u_args u'.
Proof.
  intros pr ord tm before between d i mods u u' e out line Ho P C M w. destruct (reached pr ord the_executor tm Ho before between d P C M) as (Cw & Pb & Cb). intros Pr L Ne Nc.
  exact (quiet_interleaved pr ord tm Ho w i mods between u u' e out line Cw Pb Cb Pr L Ne Nc).
Qed.
Print Assumptions C92_other_lines.

(** Program 0 reloads two variables; between its two readings program 1 changes both. *)
Definition before3 : list turn :=
  two_start ++ types 1 (lit "$x = 1") ++ repeat (Goes 1) 5 ++ types 1 (lit "$y = 2") ++ repeat (Goes 1) 5 ++ removelast (types 0 (lit "/reloadvar $x $y $q")).
Definition between3 : list turn := repeat (Goes 0) 2 ++ types 1 (lit "$x = 7") ++ repeat (Goes 1) 5 ++ types 1 (lit "$y = 3") ++ repeat (Goes 1) 5 ++ repeat (Goes 0) 4.
Definition output3 := last_output (after_turns (before3 ++ removelast (line_turns 0 0 between3))) 0.
Definition processed (before between : list turn) : Prop :=
  here Debug (after_turns before) 0 0 between (the_ui (after_turns before) 0) (the_ui (after_turns (before ++ line_turns 0 0 between)) 0)
    (the_ending (after_turns (before ++ line_turns 0 0 between)) 0) (last_output (after_turns (before ++ removelast (line_turns 0 0 between))) 0).
Example C92_example : Forall proper_turn (before3 ++ between3) /\ Forall calm_turn (before3 ++ between3) /\ made_file empty_db /\ processed before3 between3 /\
  shown (u_inputs (the_ui (after_turns before3) 0)) = Ok (lit "/reloadvar $x $y $q") /\
  is_command (a_radix (u_args (the_ui (after_turns before3) 0))) (lit "/reloadvar $x $y $q") (lit "reloadvar") (lit "$x $y $q") /\
  firstn 9 output3 = print_output false (join_rows [lit "Set $x to 1"; lit "Set $y to 3"; lit "$q unchanged"]) /\
  remembers (after_turns (before3 ++ line_turns 0 0 between3)) 0 (lit "$y") = Some (3 # 1)%Q.
Proof.
  destruct (two_starts (skipn 2 (before3 ++ between3)) ltac:(vm_compute; reflexivity)) as (P & C).
  split; [exact P|]. split; [exact C|]. split; [exact made_empty|]. split; [apply line_processed; vm_compute; reflexivity|]. split; [vm_compute; reflexivity|].
  split; [do 2 eexists; split; [vm_compute; reflexivity|]; split; vm_compute; reflexivity|]. split; vm_compute; reflexivity.
Qed.
(** The same with /purgevar, /histcap and a setting. *)
Definition before_line (line : string) : list turn := two_start ++ types 1 (lit "$x = 1") ++ repeat (Goes 1) 5 ++ removelast (types 0 (lit line)).
Definition between4 : list turn := Goes 0 :: types 1 (lit "$x = 7") ++ repeat (Goes 1) 5.
Example C92_purgevar_example : Forall proper_turn (before_line "/purgevar $x" ++ between4) /\ Forall calm_turn (before_line "/purgevar $x" ++ between4) /\ processed (before_line "/purgevar $x") between4 /\
  shown (u_inputs (the_ui (after_turns (before_line "/purgevar $x")) 0)) = Ok (lit "/purgevar $x") /\
  is_command (a_radix (u_args (the_ui (after_turns (before_line "/purgevar $x")) 0))) (lit "/purgevar $x") (lit "purgevar") (lit "$x") /\
  d_vars (r_file (after_turns (before_line "/purgevar $x" ++ line_turns 0 0 between4))) = [].
Proof.
  destruct (two_starts (skipn 2 (before_line "/purgevar $x" ++ between4)) ltac:(vm_compute; reflexivity)) as (P & C).
  split; [exact P|]. split; [exact C|]. split; [apply line_processed; vm_compute; reflexivity|]. split; [vm_compute; reflexivity|].
  split; [do 2 eexists; split; [vm_compute; reflexivity|]; split; vm_compute; reflexivity|]. vm_compute; reflexivity.
Qed.
Definition between5 : list turn := Goes 0 :: types 1 (lit "/histcap 50") ++ repeat (Goes 1) 5.
Example C92_histcap_example : Forall proper_turn (before_line "/histcap" ++ between5) /\ Forall calm_turn (before_line "/histcap" ++ between5) /\ processed (before_line "/histcap") between5 /\
  shown (u_inputs (the_ui (after_turns (before_line "/histcap")) 0)) = Ok (lit "/histcap") /\
  is_command (a_radix (u_args (the_ui (after_turns (before_line "/histcap")) 0))) (lit "/histcap") (lit "histcap") [] /\
  firstn 3 (last_output (after_turns (before_line "/histcap" ++ removelast (line_turns 0 0 between5))) 0) = print_output false (lit "50").
Proof.
  destruct (two_starts (skipn 2 (before_line "/histcap" ++ between5)) ltac:(vm_compute; reflexivity)) as (P & C).
  split; [exact P|]. split; [exact C|]. split; [apply line_processed; vm_compute; reflexivity|]. split; [vm_compute; reflexivity|].
  split; [do 2 eexists; split; [vm_compute; reflexivity|]; split; vm_compute; reflexivity|]. vm_compute; reflexivity.
Qed.
(** (A line that makes no other call is complete after the recording.) *)
Definition between6 : list turn := types 1 (lit "/radix 2") ++ repeat (Goes 1) 5.
Example C92_other_example : Forall proper_turn (before_line "/radix 16" ++ between6) /\ Forall calm_turn (before_line "/radix 16" ++ between6) /\ processed (before_line "/radix 16") between6 /\
  shown (u_inputs (the_ui (after_turns (before_line "/radix 16")) 0)) = Ok (lit "/radix 16") /\
  is_command (a_radix (u_args (the_ui (after_turns (before_line "/radix 16")) 0))) (lit "/radix 16") (lit "radix") (lit "16") /\
  a_radix (u_args (the_ui (after_turns (before_line "/radix 16" ++ line_turns 0 0 between6)) 0)) = 16%N.
Proof.
  destruct (two_starts (skipn 2 (before_line "/radix 16" ++ between6)) ltac:(vm_compute; reflexivity)) as (P & C).
  split; [exact P|]. split; [exact C|]. split; [apply line_processed; vm_compute; reflexivity|]. split; [vm_compute; reflexivity|].
  split; [do 2 eexists; split; [vm_compute; reflexivity|]; split; vm_compute; reflexivity|]. vm_compute; reflexivity.
Qed.

(** ** C93 *)
(** Of the turns of a program processing a line, each does to the file one of the things the line is for and nothing else
    ([own_turn]), all of them under one identifier; what others wrote in between stays. *)
Theorem C93_line_turns : forall pr ord tm before between d i mods u u' e out line,
  (forall i n, iterates (ord i n)) -> Forall proper_turn (before ++ between) -> Forall calm_turn (before ++ between) -> made_file d ->
  let w := room_run pr ord the_executor tm before (empty_room d) in
  processes pr ord the_executor tm w i mods between u u' e out -> shown (u_inputs u) = Ok line ->
  exists id, forall first rest, line_turns i mods between = first ++ Goes i :: rest ->
    own_turn (a_radix (u_args u)) line id (r_file (room_run pr ord the_executor tm first w)) (r_file (room_run pr ord the_executor tm (first ++ [Goes i]) w)).
Proof.
  intros pr ord tm before between d i mods u u' e out line Ho P C M w. destruct (reached pr ord the_executor tm Ho before between d P C M) as (Cw & Pb & Cb). intros Pr L.
  exact (own_turns pr ord tm Ho w i mods between u u' e out line Cw Pb Cb Pr L).
Qed.
Print Assumptions C93_line_turns.
(** Every other turn -- a program starts, or receives an event, the press of Enter included -- leaves the file as it is,
    once it is there. *)
Theorem C93_other_turns : forall pr ord x tm before tn d cap,
  (forall i n, iterates (ord i n)) -> Forall proper_turn before -> Forall calm_turn before -> made_file d ->
  let w := room_run pr ord x tm before (empty_room d) in
  capacity (r_file w) cap -> (forall i, tn <> Goes i) -> r_file (fst (room_step pr ord x tm tn w)) = r_file w.
Proof.
  intros pr ord x tm before tn d cap Ho P C M w Cp Ng. rewrite <- (app_nil_r before) in P, C. destruct (reached pr ord x tm Ho before [] d P C M) as (Cw & _).
  exact (kept_file pr ord x tm tn w Ho Cw (made_program _ _ (proj1 (proj1 Cw)) Cp) Ng).
Qed.
Print Assumptions C93_other_turns.
Example C93_example : Forall proper_turn (before3 ++ between3) /\ Forall calm_turn (before3 ++ between3) /\ made_file empty_db /\ processed before3 between3 /\
  (let file k := r_file (after_turns (before3 ++ firstn k (line_turns 0 0 between3))) in
   (* the recording, and the note that the variable was used *)
   texts_of (file 1) = [lit "$x = 1"; lit "$y = 2"] /\ texts_of (file 2) = [lit "$x = 1"; lit "$y = 2"; lit "/reloadvar $x $y $q"] /\
   map v_used (d_vars (file 29)) = [4; 5]%Z /\ map v_used (d_vars (file 31)) = [3; 3]%Z) /\
  capacity (r_file (after_turns before3)) 100.
Proof.
  destruct C92_example as (P & C & M & Pr & _). split; [exact P|]. split; [exact C|]. split; [exact M|]. split; [exact Pr|]. split; [cbv zeta; repeat split; vm_compute; reflexivity|vm_compute; reflexivity].
Qed.
