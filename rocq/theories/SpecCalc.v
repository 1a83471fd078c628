(** SpecCalc.v -- what submitting a line is supposed to do to variables, settings and history. *)
From Verif Require Import Base Position Num TokenTypes Errors Token SavedData Variables InputHistory SpecPrint
                          SyntaxTree Commands Calculate Sessions SpecGrammar SpecEval SpecHistory SpecSyntax.
From Coq Require Import String Permutation.
Local Open Scope list_scope.

(** ** Variables *)

(** The running session knows [x], with value [v]. *)
Definition remembered (s : env) (x : str) (v : Q) : Prop :=
  exists m, e_vars s = Some m /\ vs_get m x = Some v.
Definition not_remembered (s : env) (x : str) : Prop :=
  exists m, e_vars s = Some m /\ vs_get m x = None.
(** [x] is saved on disk, with value [v]. *)
Definition stored (s : env) (x : str) (v : Q) : Prop :=
  exists sd, e_db s = Some sd /\ on_disk (sd_db sd) x v.

(** The same variables have the same values, what the session remembers it still remembers (using
    a variable may copy it from disk), and the same variables are on disk. *)
Definition same_variables (s s' : env) : Prop :=
  (e_vars s = None <-> e_vars s' = None) /\ (e_db s = None <-> e_db s' = None) /\
  (forall x v, var_value s x v <-> var_value s' x v) /\
  (forall x v, remembered s x v -> remembered s' x v) /\
  (forall x v, stored s x v <-> stored s' x v).
(** Now [x] has the value [v], and nothing else changed except possibly what is on disk for [x]. *)
Definition assigned (s s' : env) (x : str) (v : Q) : Prop :=
  (e_db s = None <-> e_db s' = None) /\
  remembered s' x v /\
  (forall y w, y <> x -> (var_value s y w <-> var_value s' y w)) /\
  (forall y w, y <> x -> remembered s y w -> remembered s' y w) /\
  (forall y w, y <> x -> (stored s y w <-> stored s' y w)).
(** What is on disk for [x] is exactly [v] / is what it was before. *)
Definition disk_updated (s' : env) (x : str) (v : Q) : Prop :=
  e_db s' = None \/ forall w, stored s' x w <-> w = v.
Definition disk_kept (s s' : env) (x : str) : Prop := forall w, stored s x w <-> stored s' x w.

(** ** Lines *)

(** The state once the line has been recorded in the history, before it is interpreted. *)
Definition after_recording (se : session) : env :=
  match s_inputs se with
  | None => s_env se
  | Some h => mkEnv (e_vars (s_env se)) (snd (fst (input_finished h (e_db (s_env se)))))
  end.

(** The line is an assignment to [x] of the expression with tree [n]. *)
Definition assignment (ts : list ptoken) (x : str) (n : node) : Prop :=
  exists p q rest, ts = tk (TVariable x) p :: tk TAssign q :: rest /\ derives 5 rest n.
Definition is_command (radix : N) (input : str) (name arguments : str) : Prop :=
  exists n a, tokenize input radix = Ok (PCommand n a) /\ pd_value n = name /\ pd_value a = arguments.
Definition is_expression (radix : N) (input : str) (ts : list ptoken) : Prop :=
  tokenize input radix = Ok (PTokens ts).
(** The line is a command [name] listing these variables. *)
Definition variable_command (radix : N) (input : str) (name : str) (xs : list str) : Prop :=
  exists arguments l, is_command radix input name arguments /\
    tokenize_variable_list arguments = Ok l /\ xs = map pd_value l.

(** What the user is told in reply to an expression line with tokens [ts], interpreted under the
    settings [a] in state [s]. *)
Inductive line_reply (pr : profile) (a : args) (s : env) (ts : list ptoken) : outcome failure str -> Prop :=
| lr_blank : ts = [] -> line_reply pr a s ts (Ok [])
| lr_value : forall n v text, derives 5 ts n \/ (exists x, assignment ts x n /\ e_vars s <> None) ->
    meaning (var_result s) (power_with pr a) n (Value v) -> canon v ->
    result_text a v text -> line_reply pr a s ts (Ok text)
| lr_fails : forall n e, derives 5 ts n \/ (exists x, assignment ts x n) ->
    meaning (var_result s) (power_with pr a) n (Fails e) -> line_reply pr a s ts (Err e)
| lr_crashes : forall n p, derives 5 ts n \/ (exists x, assignment ts x n) ->
    meaning (var_result s) (power_with pr a) n Crashes -> line_reply pr a s ts (Panic p)
| lr_no_store : forall x n p q, assignment ts x n -> nth_error ts 0 = Some (tk q p) -> e_vars s = None ->
    line_reply pr a s ts (Err (no_variable_store p))
| lr_syntax : forall text p, ts <> [] -> (forall t, ~ line_tree ts t) -> syntax_complaint ts text p ->
    line_reply pr a s ts (Err (InputError (mkMP text (Some p))))
| lr_database : forall e, e_db s <> None -> line_reply pr a s ts (Err (RuntimeError e)).

(** The file content is one that some calls, by any number of sessions, can lead to. *)
Definition program_file (d : database) : Prop :=
  exists w i, reachable w /\ is_open w i /\ w_file w = d.
Definition real_database (s : env) : Prop := forall sd, e_db s = Some sd -> program_file (sd_db sd).

(** A hash set is iterated in some order, visiting every element exactly once. *)
Definition iterates (ord : list str -> list str) : Prop := forall l, Permutation (ord l) l.

(** ** Settings *)
Definition radix_ok (r : N) : Prop := (2 <= r <= 16)%N.
Definition valid_settings (a : args) : Prop :=
  radix_ok (a_radix a) /\ (forall r, a_convert_to_radix a = Some r -> radix_ok r) /\
  (a_precision a < 256)%N /\ (a_extra_precision a < 256)%N.
(** The two precisions together fit in 8 bits. *)
Definition precision_fits (a : args) : Prop := (a_precision a + a_extra_precision a < 256)%N.

(** ** Sessions *)

(** What happens in a session: lines are submitted (each with some iteration order of the hash
    sets); in between the user edits and recalls lines, other sessions change the database, and
    external failures lie ahead. *)
Inductive happening :=
| Line (input : str) (ord : list str -> list str)
| Meanwhile (inputs : option input_history) (db : option saved_data).
Definition happens (pr : profile) (x : executor) (e : happening) (se : session)
  : session * outcome failure str :=
  match e with
  | Line input ord => calculate pr ord x input se
  | Meanwhile inputs db => (mkSession (s_args se) inputs (mkEnv (e_vars (s_env se)) db), Ok [])
  end.
Fixpoint session_after (pr : profile) (x : executor) (es : list happening) (se : session) : session :=
  match es with
  | [] => se
  | e :: rest => session_after pr x rest (fst (happens pr x e se))
  end.
(** Whatever else happens to it, the saved variables stay readable (C34, C38). *)
Definition readable (e : happening) : Prop :=
  match e with
  | Line _ _ => True
  | Meanwhile _ db => forall sd, db = Some sd -> rows_ok (sd_db sd)
  end.
(** The event does not successfully assign [x], nor purge or reload it. *)
Definition spares_variable (pr : profile) (x : executor) (name : str) (e : happening) (se : session) : Prop :=
  match e with
  | Line input ord =>
      iterates ord /\
      (forall ts n, is_expression (a_radix (s_args se)) input ts -> assignment ts name n ->
         exists m, snd (happens pr x e se) = Err (InputError m)) /\
      (forall cmd xs, variable_command (a_radix (s_args se)) input cmd xs ->
         (cmd = lit "purgevar" \/ cmd = lit "reloadvar") -> ~ In name xs)
  | Meanwhile _ _ => True
  end.
Fixpoint spared (pr : profile) (x : executor) (name : str) (es : list happening) (se : session) : Prop :=
  match es with
  | [] => True
  | e :: rest =>
      spares_variable pr x name e se /\ spared pr x name rest (fst (happens pr x e se))
  end.

(** ** Which input keeps a saved variable alive (C37) *)
Definition mentions (ts : list ptoken) (y : str) : Prop := exists p, In (tk (TVariable y) p) ts.
(** The line assigned [y]. *)
Definition assigns (ts : list ptoken) (y : str) (r : outcome failure str) : Prop :=
  (exists n, assignment ts y n) /\ exists text, r = Ok text.
