(** SpecDamage.v -- what a saved variable stands for in a database file of any content (edited by
    hand, written by another program, or damaged).  Independent of how the program reads it. *)
From Verif Require Import Base SpecDecimal Position Num TokenTypes Errors SavedData Variables InputHistory SyntaxTree Commands Calculate SpecEval
  SpecGrammar SpecSyntax SpecPrint SpecHistory SpecEditor SpecCalc.
From Coq Require Import String.
Local Open Scope Q_scope.

(** The number written by decimal digits; underscores may separate them. *)
Fixpoint digits_value (sofar : Z) (s : str) : option Z :=
  match s with
  | [] => Some sofar
  | c :: rest =>
      if N.eqb c 95 then digits_value sofar rest
      else if N.leb 48 c && N.leb c 57 then digits_value (10 * sofar + (Z.of_N c - 48)) rest
      else None
  end.
(** The texts that are read as a whole number: perhaps a sign, a digit, then digits and underscores. *)
Inductive integer_text : str -> Z -> Prop :=
| it_plain : forall c rest n, c <> 95%N -> digits_value 0 (c :: rest) = Some n -> integer_text (c :: rest) n
| it_plus : forall c rest n, c <> 95%N -> digits_value 0 (c :: rest) = Some n -> integer_text (43%N :: c :: rest) n
| it_minus : forall c rest n, c <> 95%N -> digits_value 0 (c :: rest) = Some n -> integer_text (45%N :: c :: rest) (- n)%Z.

(** What is told about a text that is not a whole number. *)
Definition unreadable (what text name : str) : runtime_error :=
  CalculatorDatabaseInconsistencyError
    (lit "Stored " ++ what ++ lit " (" ++ text ++ lit ") for variable '" ++ name ++ lit "' cannot be parsed")%list.

(** What asking the file for variable [x] comes to. *)
Inductive reading (d : database) (x : str) : outcome runtime_error (option Q) -> Prop :=
| rd_absent : (forall r, In r (d_vars d) -> v_name r <> x) -> reading d x (Ok None)
| rd_value : forall r n m v, In r (d_vars d) -> v_name r = x -> integer_text (v_numer r) n -> integer_text (v_denom r) m ->
    m <> 0%Z -> v * inject_Z m == inject_Z n -> canon v -> reading d x (Ok (Some v))
| rd_numerator : forall r, In r (d_vars d) -> v_name r = x -> (forall n, ~ integer_text (v_numer r) n) ->
    reading d x (Err (unreadable (lit "numerator") (v_numer r) x))
| rd_denominator : forall r n, In r (d_vars d) -> v_name r = x -> integer_text (v_numer r) n ->
    (forall m, ~ integer_text (v_denom r) m) -> reading d x (Err (unreadable (lit "denominator") (v_denom r) x))
| rd_zero : forall r n, In r (d_vars d) -> v_name r = x -> integer_text (v_numer r) n -> integer_text (v_denom r) 0 ->
    reading d x (Panic DivideByZero).

(** The table's key: one row per name. *)
Definition one_row_each (d : database) : Prop := NoDup (map v_name (d_vars d)).

(** What using variable [x] gives in state [s], whatever is in the file. *)
Inductive variable_reading (s : env) (x : str) (p : position) : result -> Prop :=
| vd_no_store : e_vars s = None -> variable_reading s x p (Fails (no_variable_store p))
| vd_memory : forall m v, e_vars s = Some m -> vs_get m x = Some v -> variable_reading s x p (Value v)
| vd_no_file : forall m, e_vars s = Some m -> vs_get m x = None -> e_db s = None ->
    variable_reading s x p (Fails (unknown_variable x p))
| vd_value : forall m sd v, e_vars s = Some m -> vs_get m x = None -> e_db s = Some sd ->
    reading (sd_db sd) x (Ok (Some v)) -> variable_reading s x p (Value v)
| vd_absent : forall m sd, e_vars s = Some m -> vs_get m x = None -> e_db s = Some sd ->
    reading (sd_db sd) x (Ok None) -> variable_reading s x p (Fails (unknown_variable x p))
| vd_refused : forall m sd e, e_vars s = Some m -> vs_get m x = None -> e_db s = Some sd ->
    reading (sd_db sd) x (Err e) -> variable_reading s x p (Fails (RuntimeError e))
| vd_crash : forall m sd q, e_vars s = Some m -> vs_get m x = None -> e_db s = Some sd ->
    reading (sd_db sd) x (Panic q) -> variable_reading s x p Crashes
| vd_fault : forall m sd, e_vars s = Some m -> vs_get m x = None -> e_db s = Some sd ->
    In true (sd_faults sd) -> variable_reading s x p (Fails (RuntimeError SqliteError)).

(** The values in memory are in lowest terms; nothing is asked of the file. *)
Definition memory_ok (s : env) : Prop := forall m x v, e_vars s = Some m -> vs_get m x = Some v -> canon v.

(** A session over a database file of any content (compare [working_session]): the settings are usable,
    the values in memory are in lowest terms, the line history is one that typing produces, and no call
    fails for reasons outside the program and the file. *)
Definition any_session (se : session) : Prop :=
  valid_settings (s_args se) /\ memory_ok (s_env se) /\ no_faults (s_env se) /\
  match s_inputs se with Some h => history_of_session h | None => e_db (s_env se) = None end.

(** The reply to an expression line, once it has been recorded. *)
Inductive any_reply (pr : profile) (a : args) (s : env) (ts : list ptoken) : outcome failure str -> Prop :=
| ar_blank : ts = [] -> any_reply pr a s ts (Ok [])
| ar_value : forall n v text, derives 5 ts n \/ (exists x, assignment ts x n /\ e_vars s <> None) ->
    meaning (variable_reading s) (power_with pr a) n (Value v) -> canon v ->
    result_text a v text -> any_reply pr a s ts (Ok text)
| ar_fails : forall n e, derives 5 ts n \/ (exists x, assignment ts x n) ->
    meaning (variable_reading s) (power_with pr a) n (Fails e) -> any_reply pr a s ts (Err e)
| ar_crashes : forall n p, derives 5 ts n \/ (exists x, assignment ts x n) ->
    meaning (variable_reading s) (power_with pr a) n Crashes -> any_reply pr a s ts (Panic p)
| ar_no_store : forall x n p q, assignment ts x n -> nth_error ts 0 = Some (tk q p) -> e_vars s = None ->
    any_reply pr a s ts (Err (no_variable_store p))
| ar_syntax : forall text p, ts <> [] -> (forall t, ~ line_tree ts t) -> syntax_complaint ts text p ->
    any_reply pr a s ts (Err (InputError (mkMP text (Some p)))).

(** A consistent file: no key occurs twice, and whatever refers to a line of the history refers to one that is there. *)
Definition has_line (d : database) (id : Z) : Prop := exists r, In r (d_hist d) /\ h_id r = id.
Definition consistent (d : database) : Prop :=
  NoDup (map fst (d_meta d)) /\ NoDup (map h_id (d_hist d)) /\ NoDup (map fst (d_tags d)) /\ NoDup (map v_name (d_vars d)) /\
  (forall r id, In r (d_hist d) -> h_next r = Some id \/ h_prev r = Some id -> has_line d id) /\
  (forall k id, In (k, Some id) (d_tags d) -> has_line d id) /\
  (forall v, In v (d_vars d) -> has_line d (v_used v)).
