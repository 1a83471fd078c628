(** Commands.v -- model of src/commands.rs. *)
From Verif Require Import Base Position Num TokenTypes Errors Token Operations SavedData Variables
                          SyntaxTree.
From Coq Require Import String.
Local Open Scope list_scope.

(** The ten [Command] implementations, in the order of COMMAND_CONSTRUCTORS
    (src/commands.rs:19-30). *)
Inductive command :=
| CHelp | CReloadVar | CPurgeVar | CHistCap | CFractional | CRadix | CConvertToRadix
| CUpper | CCommas | CPrecision.
Definition command_constructors : list command :=
  [CHelp; CReloadVar; CPurgeVar; CHistCap; CFractional; CRadix; CConvertToRadix;
   CUpper; CCommas; CPrecision].

(** the [name] methods: src/commands.rs:146, 220, 304, 377, 469, 532, 609, 695, 757, 820 *)
Definition command_name (c : command) : str :=
  match c with
  | CHelp => lit "help"
  | CReloadVar => lit "reloadvar"
  | CPurgeVar => lit "purgevar"
  | CHistCap => lit "histcap"
  | CFractional => lit "fractional"
  | CRadix => lit "radix"
  | CConvertToRadix => lit "converttoradix"
  | CUpper => lit "upper"
  | CCommas => lit "commas"
  | CPrecision => lit "precision"
  end.
(** the [aliases] methods, four lines after each [name] *)
Definition command_aliases (c : command) : list str :=
  match c with
  | CHelp => [lit "h"]
  | CFractional => [lit "f"]
  | CRadix => [lit "r"]
  | CCommas => [lit "comma"]
  | CPrecision => [lit "p"]
  | _ => []
  end.

(** src/commands.rs:63-66 [struct CommandExecutor]; hash maps as association lists. *)
Record executor := mkExec { x_commands : list (str * command); x_aliases : list (str * str) }.

(** src/commands.rs:74-86: one command's aliases *)
Fixpoint add_aliases {E} (x : executor) (name : str) (aliases : list str) : outcome E executor :=
  match aliases with
  | [] => Ok x
  | a :: rest =>
      match assoc a (x_commands x) with
      | Some _ => Panic TableInconsistent
      | None =>
          match assoc a (x_aliases x) with
          | Some _ => Panic TableInconsistent
          | None => add_aliases (mkExec (x_commands x) ((a, name) :: x_aliases x)) name rest
          end
      end
  end.
(** src/commands.rs:67-100 [CommandExecutor::new] *)
Fixpoint executor_add {E} (x : executor) (cs : list command) : outcome E executor :=
  match cs with
  | [] => Ok x
  | c :: rest =>
      let name := command_name c in
      x1 <- add_aliases x name (command_aliases c) ;;
      match assoc name (x_aliases x1) with
      | Some _ => Panic TableInconsistent
      | None =>
          match assoc name (x_commands x1) with
          | Some _ => Panic TableInconsistent
          | None => executor_add (mkExec ((name, c) :: x_commands x1) (x_aliases x1)) rest
          end
      end
  end.
Definition executor_new {E} : outcome E executor := executor_add (mkExec [] []) command_constructors.

Definition nl : str := [c_newline].
Definition is_none {A} (o : option A) : bool := match o with None => true | Some _ => false end.

(** the [short_help] methods: src/commands.rs:154, 228, 312, 385, 477, 540, 617, 703, 765, 828 *)
Definition short_help (c : command) (s : env) : str :=
  let unavailable (b : bool) := if b then lit "(unavailable) " else [] in
  match c with
  | CHelp => lit "Gives help with commands"
  | CReloadVar => unavailable (is_none (e_db s) || is_none (e_vars s))
                    ++ lit "Reloads variable(s) from the disk"
  | CPurgeVar => unavailable (is_none (e_vars s)) ++ lit "Unsets variable(s)"
  | CHistCap => unavailable (is_none (e_db s)) ++ lit "Get/Set the on-disk history capacity"
  | CFractional => lit "Retrieves or sets fractional display setting"
  | CRadix => lit "Retrieves or sets the current radix"
  | CConvertToRadix => lit "Retrieves or sets the current output radix"
  | CUpper => lit "Retrieves or sets upper display setting"
  | CCommas => lit "Retrieves or sets comma display setting"
  | CPrecision => lit "Retrieves or sets the current precision"
  end.

(** the usage lines shared by the four boolean/radix settings' [long_help] *)
Definition help_bool_tail : str :=
  lit "If no value is provided, the current setting value is displayed." ++ nl ++
  lit "If a value is given, the setting value is updated." ++ nl ++
  lit "The value given should be a boolean, which can be represented as ""true"", " ++
  lit """false"", ""t"", or ""f"".".

(** the [long_help] methods: src/commands.rs:158, 238, 322, 395, 481, 544, 621, 707, 769, 832 *)
Definition long_help (c : command) (s : env) : str :=
  match c with
  | CHelp =>
      lit "Usage: /help" ++ nl ++ lit "       /help command_name" ++ nl ++ lit "Alias: /h" ++ nl ++ nl ++
      lit "With no arguments, lists all the available commands. If a command is given as an " ++
      lit "argument, provides more detailed help with the specified command."
  | CReloadVar =>
      lit "Usage: /reloadvar variable_name_1 [variable_name_2 [...]]" ++ nl ++ nl ++
      lit "Reloads the specified variable(s) from the variable history in the on-disk " ++
      lit "database. Fails with no effect if there is no such variable in the database." ++
      (if is_none (e_db s) || is_none (e_vars s) then
         nl ++ nl ++ lit "This command is currently unavailable because " ++
         (if is_none (e_db s) && is_none (e_vars s)
          then lit "both the on-disk database and the variable store are"
          else if is_none (e_db s) then lit "the on-disk database is"
          else lit "the variable store is") ++
         lit " unavailable."
       else [])
  | CPurgeVar =>
      lit "Usage: /purgevar variable_name_1 [variable_name_2 [...]]" ++ nl ++ nl ++
      lit "Removes the variable(s) from both the variable store and the variable history in the " ++
      lit "on-disk database, if available." ++
      (if is_none (e_vars s) then
         nl ++ nl ++ lit "This command is currently unavailable because the variable store is " ++
         lit "unavailable."
       else [])
  | CHistCap =>
      lit "Usage: /histcap [size]" ++ nl ++ nl ++
      lit "If a size is provided, the maximum on-disk history size is updated. If one is not " ++
      lit "provided, the current size is printed." ++ nl ++
      lit "bcalc provides an in-memory input history as well as an on-disk one. The in-memory " ++
      lit "history is currently not limited but will, of course, be lost when the instance of " ++
      lit "bcalc exits. The on-disk history is not cleared when bcalc exits. It would be a " ++
      lit "problem for it to grow out of control, so it is limited to a certain number of " ++
      lit "inputs. After reaching the limit, old entries will be removed." ++ nl ++
      lit "The variable history is also tied to the input history. Values will be removed from " ++
      lit "the variable history after the last input that accessed that value is removed from " ++
      lit "the input history." ++ nl ++
      lit "Provided size will always be assumed to use radix (base) 10." ++
      (if is_none (e_db s) then
         nl ++ nl ++ lit "This command is currently unavailable because the on-disk database is " ++
         lit "unavailable."
       else [])
  | CFractional =>
      lit "Usage: /fractional [enabled]" ++ nl ++ lit "Alias: /f" ++ nl ++ nl ++
      lit "If the enabled value is ""true"", non-integer numbers will be output as fractions. " ++
      lit "If the value is ""false"", non-integer numbers will be output as decimals." ++ nl ++
      help_bool_tail
  | CRadix =>
      lit "Usage: /radix [value]" ++ nl ++ lit "Alias: /r" ++ nl ++ nl ++
      lit "Value represents the radix used to parse and output numbers." ++ nl ++
      lit "If no value is provided, the current setting value is displayed." ++ nl ++
      lit "If a value is given, the setting value is updated." ++ nl ++
      lit "The value given should be an integer between 2 and 16 (inclusive)."
  | CConvertToRadix =>
      lit "Usage: /converttoradix [value]" ++ nl ++ nl ++
      lit "Value overrides the radix used to output numbers." ++ nl ++
      lit "If no value is provided, the current setting value is displayed." ++ nl ++
      lit "If a value is given, the setting value is updated." ++ nl ++
      lit "The value given can be ""none"" or an integer between 2 and 16 (inclusive)."
  | CUpper =>
      lit "Usage: /upper [enabled]" ++ nl ++ nl ++
      lit "If the enabled value is ""true"", digits above 9 will be output in uppercase. If " ++
      lit """false"", they will be output in lowercase." ++ nl ++
      help_bool_tail
  | CCommas =>
      lit "Usage: /commas [enabled]" ++ nl ++ lit "Alias: /comma" ++ nl ++ nl ++
      lit "If the enabled value is ""true"", commas will be used as thousands separators when " ++
      lit "outputting numbers." ++ nl ++
      help_bool_tail
  | CPrecision =>
      lit "Usage: /precision [value [extra]]" ++ nl ++ lit "Alias: /p" ++ nl ++ nl ++
      lit "The value represents the maximum number of digits that are displayed after the " ++
      lit "decimal point when outputting numbers." ++ nl ++
      lit "If no value is provided, the current setting value is displayed." ++ nl ++
      lit "If a value is given, the setting value is updated." ++ nl ++
      lit "The value given should be representable as an 8-bit unsigned integer." ++ nl ++
      lit "If extra is given, it should also be representable as an 8-bit unsigned integer." ++ nl ++
      lit "This will represent the additional precision that is stored internally but not displayed." ++ nl ++
      lit "This is only really relevant for operations that cannot be done with infinite precision." ++ nl ++
      lit "For example: sqrt(2)" ++ nl ++
      lit "value + extra must also be representable as an 8-bit unsigned integer."
  end.

(** [Vec<String>::sort]: insertion sort (strings are totally ordered, so any sort agrees). *)
Fixpoint insert_str (x : str) (l : list str) : list str :=
  match l with
  | [] => [x]
  | y :: l' => if str_leb x y then x :: l else y :: insert_str x l'
  end.
Definition sort_str (l : list str) : list str := fold_right insert_str [] l.

(** [format!("{:width$}", s)] *)
Definition pad_right (s : str) (w : nat) : str := s ++ repeat c_space (w - List.length s).

(** What a command does to the program settings and the environment. *)
Definition cmd_result := (args * env * outcome failure (str * list str))%type.
Definition cmd_done (a : args) (s : env) (m : str) : cmd_result := (a, s, Ok (m, [])).
Definition input_error (m : str) (p : position) : failure := InputError (mkMP m (Some p)).

(** src/commands.rs:111-114 and 193-196: alias resolution *)
Definition resolve_alias (x : executor) (name : str) : str :=
  match assoc name (x_aliases x) with Some n => n | None => name end.
Definition no_such_command (name : positioned str) : failure :=
  input_error (lit "No such command: '" ++ pd_value name ++ lit "'") (pd_pos name).

(** src/commands.rs:169-208 [HelpCommand::execute] *)
Definition exec_help (x : executor) (arguments : positioned str) (a : args) (s : env) : cmd_result :=
  match ptrim arguments with
  | Panic p => (a, s, Panic p)
  | Err e => (a, s, Err e)
  | Ok alias_name =>
      match pd_value alias_name with
      | [] =>
          let commands := sort_str (map fst (x_commands x)) in
          let width := fold_left (fun acc c => Nat.max acc (List.length c)) commands 0 in
          let line (c : str) :=
            match assoc c (x_commands x) with
            | Some cmd => nl ++ lit "  " ++ pad_right c width ++ lit " " ++ short_help cmd s
            | None => [] (* [command_map[&command]] on a key of the map: never absent *)
            end in
          cmd_done a s (lit "Available commands:" ++ List.concat (map line commands))
      | _ =>
          match assoc (resolve_alias x (pd_value alias_name)) (x_commands x) with
          | Some cmd => cmd_done a s (long_help cmd s)
          | None => (a, s, Err (no_such_command alias_name))
          end
      end
  end.

(** src/commands.rs:275-289: the loop of [ReloadVarCommand::execute] over the (arbitrarily
    ordered) set of variables *)
Fixpoint reload_loop (names : list str) (output : str) (touched : list str) (vars : vstore)
         (db : saved_data) : vstore * saved_data * outcome runtime_error (str * list str) :=
  match names with
  | [] => (vars, db, Ok (output, touched))
  | name :: rest =>
      let output := match output with [] => [] | _ => output ++ nl end in
      match vs_reload vars name db with
      | (vars', db', Ok (Some v)) =>
          reload_loop rest (output ++ lit "Set " ++ name ++ lit " to " ++ show_ratio v)
                      (touched ++ [name]) vars' db'
      | (vars', db', Ok None) =>
          reload_loop rest (output ++ name ++ lit " unchanged") (touched ++ [name]) vars' db'
      | (vars', db', Err e) => (vars', db', Err e)
      | (vars', db', Panic p) => (vars', db', Panic p)
      end
  end.

(** src/commands.rs:266-270 and 345-349: collecting the variable tokens into a
    [HashSet<Positioned<String>>].  Equality and hash of a [Positioned] are those of its value
    (src/position.rs:58-81), so a name given several times is kept once. *)
Fixpoint name_set (ts : list (positioned str)) : list str :=
  match ts with
  | [] => []
  | t :: rest =>
      if existsb (str_eqb (pd_value t)) (name_set rest) then name_set rest
      else pd_value t :: name_set rest
  end.

(** src/commands.rs:260-292.  [ord] is the iteration order of the [HashSet]. *)
Definition exec_reloadvar (ord : list str -> list str) (arguments : positioned str) (a : args)
           (s : env) : cmd_result :=
  match tokenize_variable_list (pd_value arguments) with
  | Panic p => (a, s, Panic p)
  | Err e => (a, s, Err (fail_str e))
  | Ok variable_tokens =>
      match e_db s with
      | None => (a, s, Err (fail_capability NoDatabase None))
      | Some db =>
          match e_vars s with
          | None => (a, s, Err (fail_capability NoVariableStore None))
          | Some vars =>
              let '(vars', db', r) :=
                reload_loop (ord (name_set variable_tokens)) [] [] vars db in
              (a, mkEnv (Some vars') (Some db'), lift_rt r)
          end
      end
  end.

(** src/commands.rs:355-360: the loop of [PurgeVarCommand::execute] *)
Fixpoint purge_loop (names : list str) (vars : vstore) (maybe_db : option saved_data)
  : vs_result unit :=
  match names with
  | [] => (vars, maybe_db, Ok tt)
  | name :: rest =>
      match vs_purge vars name maybe_db with
      | (vars', db', Ok _) => purge_loop rest vars' db'
      | (vars', db', Err e) => (vars', db', Err e)
      | (vars', db', Panic p) => (vars', db', Panic p)
      end
  end.
(** src/commands.rs:339-365 *)
Definition exec_purgevar (ord : list str -> list str) (arguments : positioned str) (a : args)
           (s : env) : cmd_result :=
  match tokenize_variable_list (pd_value arguments) with
  | Panic p => (a, s, Panic p)
  | Err e => (a, s, Err (fail_str e))
  | Ok variable_tokens =>
      match e_vars s with
      | None => (a, s, Err (fail_capability NoVariableStore None))
      | Some vars =>
          let '(vars', db', r) := purge_loop (ord (name_set variable_tokens)) vars (e_db s) in
          (a, mkEnv (Some vars') db',
           match r with
           | Ok _ => Ok (lit "Done", [])
           | Err e => Err (RuntimeError e)
           | Panic p => Panic p
           end)
      end
  end.

(** "Too many arguments", spanning the first and the last argument
    (src/commands.rs:435-443, 580-588, 663-671, 894-902). *)
Definition too_many (first : positioned Z) (rest : list (positioned Z)) : failure :=
  input_error (lit "Too many arguments")
              (from_span (pd_pos first) (pd_pos (last rest first))).

(** src/commands.rs:421-457 [HistoryCapacityCommand::execute] *)
Definition exec_histcap (pr : profile) (arguments : positioned str) (a : args) (s : env)
  : cmd_result :=
  match tokenize_int_list pr (pd_value arguments) 10 with
  | Panic p => (a, s, Panic p)
  | Err e => (a, s, Err (fail_str e))
  | Ok [] =>
      match e_db s with
      | None => (a, s, Err (fail_capability NoDatabase None))
      | Some db =>
          let '(db', r) := get_max_history_size db in
          (a, mkEnv (e_vars s) (Some db'),
           match r with
           | Ok cap => Ok (show_Z cap, [])
           | Err e => Err (RuntimeError e)
           | Panic p => Panic p
           end)
      end
  | Ok [integer] =>
      match validate_max_history_size (pd_value integer) with
      | Some m => (a, s, Err (input_error m (pd_pos integer)))
      | None =>
          match e_db s with
          | None => (a, s, Err (fail_capability NoDatabase None))
          | Some db =>
              let '(db', r) := set_max_history_size (pd_value integer) db in
              (a, mkEnv (e_vars s) (Some db'),
               match r with
               | Ok _ => Ok (lit "Done", [])
               | Err e => Err (RuntimeError e)
               | Panic p => Panic p
               end)
          end
      end
  | Ok (first :: rest) => (a, s, Err (too_many first rest))
  end.

Definition show_bool (b : bool) : str := if b then lit "true" else lit "false".

(** src/commands.rs:495-520, 720-745, 783-808: the three boolean settings differ only in the
    field read ([get]) and written ([set]). *)
Definition exec_bool_setting (get : args -> bool) (set : args -> bool -> args)
           (arguments : positioned str) (a : args) (s : env) : cmd_result :=
  let arg_string := trim (map to_ascii_lowercase (pd_value arguments)) in
  match arg_string with
  | [] => cmd_done a s (show_bool (get a))
  | _ =>
      if str_eqb arg_string (lit "f") || str_eqb arg_string (lit "false")
      then cmd_done (set a false) s (lit "Done")
      else if str_eqb arg_string (lit "t") || str_eqb arg_string (lit "true")
      then cmd_done (set a true) s (lit "Done")
      else (a, s, Err (input_error (lit "Invalid argument") (pd_pos arguments)))
  end.

Definition set_fractional (a : args) (b : bool) : args :=
  mkArgs (a_radix a) (a_alternate_screen a) (a_convert_to_radix a) (a_precision a)
         (a_extra_precision a) b (a_commas a) (a_upper a).
Definition set_commas (a : args) (b : bool) : args :=
  mkArgs (a_radix a) (a_alternate_screen a) (a_convert_to_radix a) (a_precision a)
         (a_extra_precision a) (a_fractional a) b (a_upper a).
Definition set_upper (a : args) (b : bool) : args :=
  mkArgs (a_radix a) (a_alternate_screen a) (a_convert_to_radix a) (a_precision a)
         (a_extra_precision a) (a_fractional a) (a_commas a) b.
Definition set_radix (a : args) (r : N) : args :=
  mkArgs r (a_alternate_screen a) (a_convert_to_radix a) (a_precision a)
         (a_extra_precision a) (a_fractional a) (a_commas a) (a_upper a).
Definition set_convert (a : args) (r : option N) : args :=
  mkArgs (a_radix a) (a_alternate_screen a) r (a_precision a)
         (a_extra_precision a) (a_fractional a) (a_commas a) (a_upper a).
Definition set_precision (a : args) (p e : N) : args :=
  mkArgs (a_radix a) (a_alternate_screen a) (a_convert_to_radix a) p e
         (a_fractional a) (a_commas a) (a_upper a).

(** src/commands.rs:562-588 and 645-671: the radix argument of /radix and /converttoradix *)
Definition parse_radix_arg (pr : profile) (arguments : positioned str) : outcome failure (option N) :=
  match tokenize_int_list pr (pd_value arguments) 10 with
  | Panic p => Panic p
  | Err e => Err (fail_str e)
  | Ok [] => Ok None
  | Ok [integer] =>
      if Z.ltb (pd_value integer) 2
      then Err (input_error (lit "Radix cannot be less than 2") (pd_pos integer))
      else if Z.ltb 16 (pd_value integer)
      then Err (input_error (lit "Radix cannot be greater than 16") (pd_pos integer))
      else Ok (Some (Z.to_N (pd_value integer)))
  | Ok (first :: rest) => Err (too_many first rest)
  end.

(** src/commands.rs:556-597 *)
Definition exec_radix (pr : profile) (arguments : positioned str) (a : args) (s : env) : cmd_result :=
  match parse_radix_arg pr arguments with
  | Panic p => (a, s, Panic p)
  | Err e => (a, s, Err e)
  | Ok (Some v) => cmd_done (set_radix a v) s (lit "Done")
  | Ok None => cmd_done a s (show_N (a_radix a))
  end.

(** src/commands.rs:632-683 *)
Definition exec_converttoradix (pr : profile) (arguments : positioned str) (a : args) (s : env)
  : cmd_result :=
  if str_eqb (trim (map to_ascii_lowercase (pd_value arguments))) (lit "none")
  then cmd_done (set_convert a None) s (lit "Done")
  else
    match parse_radix_arg pr arguments with
    | Panic p => (a, s, Panic p)
    | Err e => (a, s, Err e)
    | Ok (Some v) => cmd_done (set_convert a (Some v)) s (lit "Done")
    | Ok None =>
        cmd_done a s (match a_convert_to_radix a with Some r => show_N r | None => lit "None" end)
    end.

(** [u8::try_from(i64)] *)
Definition u8_try_from (z : Z) : option N :=
  if Z.leb 0 z && Z.leb z 255 then Some (Z.to_N z) else None.

(** src/commands.rs:859-893: one or two arguments of /precision *)
Definition check_precision (a : args) (precision_raw : positioned Z) (maybe_extra : option (positioned Z))
  : outcome failure (N * N) :=
  match u8_try_from (pd_value precision_raw) with
  | None => Err (input_error (lit "Precision must be representable as an 8-bit unsigned integer")
                             (pd_pos precision_raw))
  | Some precision =>
      extra <- match maybe_extra with
               | None => Ok (a_extra_precision a)
               | Some extra_raw =>
                   match u8_try_from (pd_value extra_raw) with
                   | Some e => Ok e
                   | None => Err (input_error
                                    (lit "Extra must be representable as an 8-bit unsigned integer")
                                    (pd_pos extra_raw))
                   end
               end ;;
      if N.ltb (precision + extra) 256 then Ok (precision, extra)
      else Err (input_error
                  (lit "Sum of precision and extra must be representable as an 8-bit unsigned integer")
                  (match maybe_extra with
                   | None => pd_pos precision_raw
                   | Some e => from_span (pd_pos precision_raw) (pd_pos e)
                   end))
  end.

(** src/commands.rs:850-918 *)
Definition exec_precision (pr : profile) (arguments : positioned str) (a : args) (s : env)
  : cmd_result :=
  let set_it (r : outcome failure (N * N)) : cmd_result :=
    match r with
    | Ok (p, e) => cmd_done (set_precision a p e) s (lit "Done")
    | Err e => (a, s, Err e)
    | Panic p => (a, s, Panic p)
    end in
  match tokenize_int_list pr (pd_value arguments) 10 with
  | Panic p => (a, s, Panic p)
  | Err e => (a, s, Err (fail_str e))
  | Ok [] =>
      cmd_done a s (lit "Precision = " ++ show_N (a_precision a) ++ nl ++
                    lit "Extra Precision = " ++ show_N (a_extra_precision a))
  | Ok [p] => set_it (check_precision a p None)
  | Ok [p; e] => set_it (check_precision a p (Some e))
  | Ok (first :: rest) => (a, s, Err (too_many first rest))
  end.

(** dispatch on the trait object: src/commands.rs:126 *)
Definition run_command (pr : profile) (ord : list str -> list str) (x : executor) (c : command)
           (arguments : positioned str) (a : args) (s : env) : cmd_result :=
  match c with
  | CHelp => exec_help x arguments a s
  | CReloadVar => exec_reloadvar ord arguments a s
  | CPurgeVar => exec_purgevar ord arguments a s
  | CHistCap => exec_histcap pr arguments a s
  | CFractional => exec_bool_setting a_fractional set_fractional arguments a s
  | CRadix => exec_radix pr arguments a s
  | CConvertToRadix => exec_converttoradix pr arguments a s
  | CUpper => exec_bool_setting a_upper set_upper arguments a s
  | CCommas => exec_bool_setting a_commas set_commas arguments a s
  | CPrecision => exec_precision pr arguments a s
  end.

(** src/commands.rs:101-134 [execute_command] *)
Definition execute_command (pr : profile) (ord : list str -> list str) (x : executor)
           (alias_name arguments : positioned str) (a : args) (s : env) : cmd_result :=
  match assoc (resolve_alias x (pd_value alias_name)) (x_commands x) with
  | Some c => run_command pr ord x c arguments a s
  | None => (a, s, Err (no_such_command alias_name))
  end.
