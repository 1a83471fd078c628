(** Calculate.v -- model of [calculate] (src/main.rs:514-588) and of the one-shot mode of
    [main] (src/main.rs:92-117). *)
From Verif Require Import Base Position Num TokenTypes Errors Token Operations SavedData Variables
                          InputHistory SyntaxTree Commands.
From Coq Require Import String.
Local Open Scope list_scope.

(** Everything a calculation can touch: the settings, the database, the input history and
    the variables; the last three are absent in one-shot mode. *)
Record session := mkSession
  { s_args : args; s_inputs : option input_history; s_env : env }.

(** src/main.rs:554-561: the set of variable names among the tokens ([HashSet<String>],
    so each name once). *)
Fixpoint token_variables (ts : list ptoken) : list str :=
  match ts with
  | [] => []
  | t :: rest =>
      match pd_value t with
      | TVariable name =>
          if existsb (str_eqb name) (token_variables rest) then token_variables rest
          else name :: token_variables rest
      | _ => token_variables rest
      end
  end.

(** src/main.rs:544-548 and 562-564: touching variables one after the other *)
Fixpoint touch_loop (names : list str) (maybe_id : option Z) (vars : vstore)
         (maybe_db : option saved_data) : vs_result unit :=
  match names with
  | [] => (vars, maybe_db, Ok tt)
  | name :: rest =>
      match vs_touch vars name maybe_id maybe_db with
      | (vars', db', Ok _) => touch_loop rest maybe_id vars' db'
      | (vars', db', Err e) => (vars', db', Err e)
      | (vars', db', Panic p) => (vars', db', Panic p)
      end
  end.
Definition touch_all (names : list str) (maybe_id : option Z) (s : env) : env * outcome failure unit :=
  match e_vars s with
  | None => (s, Ok tt)
  | Some vars =>
      let '(vars', db', r) := touch_loop names maybe_id vars (e_db s) in
      (mkEnv (Some vars') db', lift_rt r)
  end.

(** src/main.rs:574-587 *)
Definition format_result {E} (a : args) (v : Q) : outcome E str :=
  if a_fractional a then Ok (show_ratio v)
  else make_decimal_string v
         (match a_convert_to_radix a with Some r => r | None => a_radix a end)
         (a_precision a) (a_commas a) (a_upper a).

(** src/main.rs:534-587: everything after the line was recorded.  [ord] is the iteration
    order of the hash sets. *)
Definition calculate_body (pr : profile) (ord : list str -> list str) (x : executor) (input : str)
           (maybe_id : option Z) (a : args) (s : env) : args * env * outcome failure str :=
  match tokenize input (a_radix a) with
  | Panic p => (a, s, Panic p)
  | Err e => (a, s, Err (fail_parse e))
  | Ok (PCommand name command_args) =>
      match execute_command pr ord x name command_args a s with
      | (a', s', Ok (message, vars_touched)) =>
          let '(s'', r) := touch_all vars_touched maybe_id s' in
          (a', s'', match r with Ok _ => Ok message | Err e => Err e | Panic p => Panic p end)
      | (a', s', Err e) => (a', s', Err e)
      | (a', s', Panic p) => (a', s', Panic p)
      end
  | Ok (PTokens tokens) =>
      match touch_all (ord (token_variables tokens)) maybe_id s with
      | (s1, Err e) => (a, s1, Err e)
      | (s1, Panic p) => (a, s1, Panic p)
      | (s1, Ok _) =>
          match tokens with
          | [] => (a, s1, Ok [])
          | _ =>
              match syntax_tree_new tokens with
              | Panic p => (a, s1, Panic p)
              | Err e => (a, s1, Err (fail_syntax e))
              | Ok t =>
                  let '(s2, r) := tree_execute pr a t maybe_id s1 in
                  (a, s2, match r with
                          | Ok v => format_result a v
                          | Err e => Err e
                          | Panic p => Panic p
                          end)
              end
          end
      end
  end.

(** src/main.rs:514-588 [calculate] *)
Definition calculate (pr : profile) (ord : list str -> list str) (x : executor) (input : str)
           (se : session) : session * outcome failure str :=
  let s := s_env se in
  match s_inputs se with
  | None =>
      let '(a', s', r) := calculate_body pr ord x input None (s_args se) s in
      (mkSession a' None s', r)
  | Some inputs =>
      match input_finished inputs (e_db s) with
      | (inputs', db', Ok maybe_id) =>
          let '(a', s', r) :=
            calculate_body pr ord x input maybe_id (s_args se) (mkEnv (e_vars s) db') in
          (mkSession a' (Some inputs') s', r)
      | (inputs', db', Err e) =>
          (mkSession (s_args se) (Some inputs') (mkEnv (e_vars s) db'), Err (RuntimeError e))
      | (inputs', db', Panic p) =>
          (mkSession (s_args se) (Some inputs') (mkEnv (e_vars s) db'), Panic p)
      end
  end.

(** What the one-shot mode prints / returns: src/main.rs:99-116. *)
Inductive one_shot_result :=
| Stdout (line : str)            (* println!, exit status 0 *)
| Stderr (line : str)            (* eprintln!("Error: ..."), exit status 0 *)
| MainError (e : runtime_error)  (* main returns Err *)
| Crash (p : panic).

Definition one_shot (pr : profile) (ord : list str -> list str) (a : args) (input : str)
  : one_shot_result :=
  match executor_new with
  | Panic p => Crash p
  | Err e => Crash (match e : Empty_set with end)
  | Ok x =>
      match snd (calculate pr ord x input (mkSession a None (mkEnv None None))) with
      | Ok line => Stdout line
      | Err (InputError m) => Stderr (lit "Error: " ++ mp_value m)
      | Err (RuntimeError e) => MainError e
      | Panic p => Crash p
      end
  end.

(** src/main.rs:44-91: what clap accepts on the command line: [--radix] 2..=16,
    [--convert-to-radix] 1..17 (i.e. 1 to 16), [--precision] and [--extra-precision] any u8. *)
Definition cli_accepts (a : args) : bool :=
  N.leb 2 (a_radix a) && N.leb (a_radix a) 16 &&
  match a_convert_to_radix a with Some r => N.leb 1 r && N.ltb r 17 | None => true end &&
  N.ltb (a_precision a) 256 && N.ltb (a_extra_precision a) 256.
