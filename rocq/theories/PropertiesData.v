(** PropertiesData.v -- saved data as whole lines change them: C37 (lines) and C71 (commands); improper
    command lines: C70. *)
From Verif Require Import Base SpecDecimal Position Num TokenTypes Errors Token SavedData Variables InputHistory
  SyntaxTree Commands Calculate Editor Sessions SpecLex SpecGrammar SpecEval SpecPrint SpecHistory SpecEditor SpecCalc SpecCommands SpecSession SpecData.
From Verif Require Import ProofsLex ProofsEval ProofsCalc4 ProofsCalc7 ProofsCommands ProofsTouch2 ProofsData ProofsComplaints PropertiesEditor PropertiesCalc PropertiesSession.
From Coq Require Import String Permutation Lia.
Local Open Scope nat_scope.
Local Open Scope list_scope.

(** ** C37 *)
(** A submitted expression line that meets no database failure moves exactly the variables it mentions to
    itself: afterwards a variable it does not mention is saved as before, unless the input it hung on was evicted
    when the line was stored; a variable it mentions hangs on this line, with the value the line
    assigned to it or else the one it had. *)
Theorem C37_line_moves_what_it_mentions : forall pr ord input a h m sd se' r line ts,
  valid_settings a -> env_ok (mkEnv (Some m) (Some sd)) -> iterates ord -> program_file (sd_db sd) ->
  shown h = Ok line -> is_expression (a_radix a) input ts ->
  calculate pr ord the_executor input (mkSession a (Some h) (mkEnv (Some m) (Some sd))) = (se', r) ->
  (forall e, r <> Err (RuntimeError e)) ->
  exists cap id sd', capacity (sd_db sd) cap /\ e_db (s_env se') = Some sd' /\
    inputs_of (sd_db sd') = newest cap (inputs_of (sd_db sd) ++ [(id, line)]) /\
    forall y q k, saved (sd_db sd') y q k <->
      (~ mentions ts y /\ saved (sd_db sd) y q k /\ In k (ids_of (sd_db sd'))) \/
      (mentions ts y /\ k = id /\
         ((assigns ts y r /\ remembered (s_env se') y q) \/
          (~ assigns ts y r /\ exists k0, saved (sd_db sd) y q k0 /\ In k0 (ids_of (sd_db sd'))))).
Proof. exact line_moves. Qed.
Print Assumptions C37_line_moves_what_it_mentions.
(** With capacity 3: the line "$y = $x" keeps $x and $y alive, $z goes with the input that set it. *)
Definition owner_of (se : session) (x : str) : option Z :=
  match e_db (s_env se) with
  | Some sd => option_map v_used (find_var (d_vars (sd_db sd)) x)
  | None => None
  end.
Example C37_line_example :
  let lines := [lit "/histcap 3"; lit "$x=1"; lit "$z=2"; lit "$y=$x"; lit "0"] in
  map (owner_of (afterwards lines se0)) [lit "$x"; lit "$y"; lit "$z"] = [Some 6; Some 6; Some 5]%Z /\
  map (owner_of (afterwards (lines ++ [lit "1"]) se0)) [lit "$x"; lit "$y"; lit "$z"] = [Some 6; Some 6; None]%Z /\
  map (owner_of (afterwards (lines ++ [lit "$y+1"; lit "1"]) se0)) [lit "$x"; lit "$y"; lit "$z"] = [None; Some 8; None]%Z.
Proof. vm_compute. auto. Qed.

(** ** C71 *)
(** In a session whose database works.  /histcap without an argument says the capacity and changes
    nothing; with an integer from 1 on it sets the capacity, keeps the newest inputs and the variables that hang on
    those, and says "Done"; anything else is an error in the line and changes nothing.  (In all
    cases the line itself has been stored first.) *)
Theorem C71_histcap : forall pr ord input a h m sd se' r line arguments,
  working_session (mkSession a (Some h) (mkEnv m (Some sd))) -> shown h = Ok line ->
  is_command (a_radix a) input (lit "histcap") arguments ->
  calculate pr ord the_executor input (mkSession a (Some h) (mkEnv m (Some sd))) = (se', r) ->
  exists id d1 sd', line_recorded (sd_db sd) line id d1 /\ s_args se' = a /\ s_env se' = mkEnv m (Some sd') /\
    ((integers arguments [] /\ sd_db sd' = d1 /\ exists cap, capacity d1 cap /\ r = Ok (in_decimal cap)) \/
     (exists n, integers arguments [n] /\ (1 <= n)%Z /\ r = Ok (lit "Done") /\
        capacity (sd_db sd') n /\ inputs_of (sd_db sd') = newest n (inputs_of d1) /\
        forall y q k, saved (sd_db sd') y q k <-> saved d1 y q k /\ In k (ids_of (sd_db sd'))) \/
     (~ integers arguments [] /\ (forall n, integers arguments [n] -> (n < 1)%Z) /\ sd_db sd' = d1 /\ exists e, r = Err (InputError e))).
Proof. exact histcap_line. Qed.
Print Assumptions C71_histcap.
(** /purgevar forgets exactly the listed variables, in memory and on disk, and says "Done"; *)
Theorem C71_purgevar : forall pr ord input a h m sd se' r line arguments,
  working_session (mkSession a (Some h) (mkEnv (Some m) (Some sd))) -> shown h = Ok line -> iterates ord ->
  is_command (a_radix a) input (lit "purgevar") arguments ->
  calculate pr ord the_executor input (mkSession a (Some h) (mkEnv (Some m) (Some sd))) = (se', r) ->
  exists id d1 sd', line_recorded (sd_db sd) line id d1 /\ s_args se' = a /\ e_db (s_env se') = Some sd' /\ same_history d1 (sd_db sd') /\
    ((exists names, variable_list arguments names /\ r = Ok (lit "Done") /\
        (forall y q, remembered (s_env se') y q <-> ~ In y names /\ remembered (mkEnv (Some m) (Some sd)) y q) /\
        (forall y q k, saved (sd_db sd') y q k <-> ~ In y names /\ saved d1 y q k)) \/
     ((forall names, ~ variable_list arguments names) /\ (exists e, r = Err (InputError e)) /\ e_vars (s_env se') = Some m /\ sd_db sd' = d1)).
Proof. exact purge_line. Qed.
Print Assumptions C71_purgevar.
(** /reloadvar reports on every listed variable once, one row each, in some order; a listed variable
    that is saved takes the saved value and now hangs on this line; nothing else changes. *)
Theorem C71_reloadvar : forall pr ord input a h m sd se' r line arguments,
  working_session (mkSession a (Some h) (mkEnv (Some m) (Some sd))) -> shown h = Ok line -> iterates ord ->
  is_command (a_radix a) input (lit "reloadvar") arguments ->
  calculate pr ord the_executor input (mkSession a (Some h) (mkEnv (Some m) (Some sd))) = (se', r) ->
  exists id d1 sd', line_recorded (sd_db sd) line id d1 /\ s_args se' = a /\ e_db (s_env se') = Some sd' /\ same_history d1 (sd_db sd') /\
    ((exists names order rows, variable_list arguments names /\ each_once names order /\
        Forall2 (reload_row d1) order rows /\ r = Ok (join_rows rows) /\
        (forall y q, remembered (s_env se') y q <->
           (In y names /\ exists k, saved d1 y q k) \/
           (~ (In y names /\ exists q' k, saved d1 y q' k) /\ remembered (mkEnv (Some m) (Some sd)) y q)) /\
        (forall y q k, saved (sd_db sd') y q k <->
           (~ In y names /\ saved d1 y q k) \/ (In y names /\ k = id /\ exists k0, saved d1 y q k0))) \/
     ((forall names, ~ variable_list arguments names) /\ (exists e, r = Err (InputError e)) /\ e_vars (s_env se') = Some m /\ sd_db sd' = d1)).
Proof. exact reload_line. Qed.
Print Assumptions C71_reloadvar.
(** Without a database /histcap and /reloadvar say so and do nothing; /purgevar works on the memory
    alone, and without that (an expression given on the command line) says so. *)
Theorem C71_without_database : forall pr ord input a inputs v se' r name arguments,
  (forall h, inputs = Some h -> exists line, shown h = Ok line) -> iterates ord ->
  is_command (a_radix a) input name arguments ->
  calculate pr ord the_executor input (mkSession a inputs (mkEnv v None)) = (se', r) ->
  let unavailable what := r = Err (InputError (mkMP (lit what) None)) /\ s_args se' = a /\ s_env se' = mkEnv v None in
  (name = lit "histcap" -> integers arguments [] \/ (exists n, integers arguments [n] /\ (1 <= n)%Z) -> unavailable "Database unavailable"%string) /\
  (name = lit "reloadvar" -> (exists names, variable_list arguments names) -> unavailable "Database unavailable"%string) /\
  (name = lit "purgevar" -> forall names, variable_list arguments names ->
     (v = None -> unavailable "Variable store unavailable"%string) /\
     forall m, v = Some m -> r = Ok (lit "Done") /\ s_args se' = a /\ e_db (s_env se') = None /\
       forall y q, remembered (s_env se') y q <-> ~ In y names /\ remembered (mkEnv v None) y q).
Proof. exact without_database. Qed.
Print Assumptions C71_without_database.
Example C71_example :
  let se := afterwards [lit "/histcap 6"; lit "$x=1/3"; lit "$y=8"; lit "/purgevar $x $q"; lit "$x=-4"] se0 in
  snd (enter (lit "/histcap") se) = Ok (lit "6") /\
  snd (enter (lit "/histcap 0") se) = Err (InputError (mkMP (lit "Maximum history size must be at least 1") (Some (mkPos 0 1)))) /\
  snd (enter (lit "/reloadvar $x $q $y") se) = Ok (join_rows [lit "Set $x to -4"; lit "$q unchanged"; lit "Set $y to 8"]) /\
  snd (enter (lit "/reloadvar $x $x") se) = Ok (lit "Set $x to -4") /\
  disk_of se (lit "$x") = Some (lit "-4", lit "1") /\
  disk_of (afterwards [lit "/histcap 2"] se) (lit "$y") = None /\
  texts_on_disk (afterwards [lit "/histcap 2"] se) = [lit "$x=-4"; lit "/histcap 2"] /\
  variable_list (lit "$x $q") [lit "$x"; lit "$q"] /\ is_command 10 (lit "/purgevar $x $q") (lit "purgevar") (lit "$x $q").
Proof.
  cbv zeta. do 7 (split; [vm_compute; reflexivity|]). split; [apply variable_list_iff; eexists; split; vm_compute; reflexivity|].
  do 2 eexists. split; [vm_compute; reflexivity|]. split; vm_compute; reflexivity.
Qed.

(** ** C70 *)
(** A command line that was recorded is answered with a complaint about its text exactly if the text is
    improper, the complaint being the one [SpecCommands.command_complaint] gives, at the place it gives
    (counted from the beginning of the line for the name of the command, the topic of /help and the
    argument of a boolean setting, and otherwise from the beginning of the argument text, as in the code);
    such a line changes neither the settings nor, beyond its being recorded, the variables and the disk. *)
Theorem C70_complaints : forall pr ord input se se' r name arguments,
  all_ascii input -> command_parts input name arguments ->
  calculate pr ord the_executor input se = (se', r) ->
  (exists h, s_inputs se = Some h /\ forall id, snd (input_finished h (e_db (s_env se))) <> Ok id) \/
  ((forall text p, r = Err (InputError (mkMP text (Some p))) <-> command_complaint (s_args se) name arguments text p) /\
   (forall text p, command_complaint (s_args se) name arguments text p -> s_args se' = s_args se /\ s_env se' = after_recording se)).
Proof. exact complaint_line. Qed.
Print Assumptions C70_complaints.
(** There is at most one complaint. *)
Theorem C70_one_complaint : forall a name arguments text p text' p',
  command_complaint a name arguments text p -> command_complaint a name arguments text' p' -> text = text' /\ p = p'.
Proof. exact one_complaint. Qed.
Print Assumptions C70_one_complaint.
Example C70_example :
  let complaint s := match snd (enter (lit s) se0) with Err (InputError e) => Some e | _ => None end in
  complaint " /nope 1"%string = Some (mkMP (lit "No such command: 'nope'") (Some (mkPos 1 5))) /\
  complaint "/help  nope "%string = Some (mkMP (lit "No such command: 'nope'") (Some (mkPos 7 4))) /\
  complaint "/upper maybe"%string = Some (mkMP (lit "Invalid argument") (Some (mkPos 7 5))) /\
  complaint "/radix 1"%string = Some (mkMP (lit "Radix cannot be less than 2") (Some (mkPos 0 1))) /\
  complaint "/radix -17 2 3"%string = Some (mkMP (lit "Too many arguments") (Some (mkPos 0 7))) /\
  complaint "/histcap 1.5"%string = Some (mkMP (lit "Expected an integer, found decimal: 3/2") (Some (mkPos 0 3))) /\
  complaint "/p 250 - 10"%string = Some (mkMP (lit "Extra must be representable as an 8-bit unsigned integer") (Some (mkPos 4 4))) /\
  complaint "/p - -10"%string = Some (mkMP (lit "Two negative signs in a row") (Some (mkPos 0 3))) /\
  complaint "/r 3x"%string = Some (mkMP (lit "Invalid variable name: '3x'") (Some (mkPos 0 2))) /\
  complaint "/purgevar $x 3"%string = Some (mkMP (lit "Expected variable, found Number (3)") (Some (mkPos 3 1))) /\
  complaint "/radix"%string = None /\ complaint "/radix 16"%string = None /\
  (exists name arguments, all_ascii (lit "/radix 1") /\ command_parts (lit "/radix 1") name arguments /\
     command_complaint a0 name arguments (lit "Radix cannot be less than 2") (mkPos 0 1)).
Proof.
  cbv zeta. do 12 (split; [vm_compute; reflexivity|]).
  destruct (proj1 (tokenize_command (lit "/radix 1") 10 (mkPositioned (lit "radix") (mkPos 0 6)) (mkPositioned (lit "1") (mkPos 7 1))) ltac:(vm_compute; reflexivity)) as (A & B).
  eexists. eexists. split; [exact A|]. split; [exact B|].
  apply (run_complaint Release order a0 _ _ _ _ (mkEnv None None) a0 (mkEnv None None)). vm_compute. reflexivity.
Qed.
