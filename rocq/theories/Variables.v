(** Variables.v -- model of src/variable.rs. *)
From Verif Require Import Base Position Num TokenTypes Errors SavedData.
From Coq Require Import String.
Local Open Scope list_scope.

(** src/variable.rs:15-17: [HashMap<String, BigRational>] as an association list. *)
Definition vstore := list (str * Q).
Fixpoint vs_get (m : vstore) (k : str) : option Q :=
  match m with
  | [] => None
  | (k', v) :: m' => if str_eqb k k' then Some v else vs_get m' k
  end.
Definition vs_remove (m : vstore) (k : str) : vstore :=
  filter (fun kv => negb (str_eqb k (fst kv))) m.
Definition vs_insert (m : vstore) (k : str) (v : Q) : vstore := (k, v) :: vs_remove m k.

(** src/variable.rs:20-24 *)
Definition vs_new : vstore := [].

(** Result of a method taking [&mut self] and [Option<&mut SavedData>]. *)
Definition vs_result (A : Type) := (vstore * option saved_data * outcome runtime_error A)%type.

(** Run an API call on an optional database that is known to be there. *)
Definition db_result {A} (r : saved_data * outcome runtime_error A)
  : option saved_data * outcome runtime_error A := (Some (fst r), snd r).

(** src/variable.rs:30-53 [update] *)
Definition vs_update (vars : vstore) (name : str) (value : Q) (maybe_id : option Z)
           (maybe_db : option saved_data) : vs_result unit :=
  let '(db', result) :=
    match maybe_db, maybe_id with
    | Some db, Some id => db_result (set_variable name value id db)
    | Some db, None =>
        (Some db, Err (InternalCalculatorError
                         (lit "VariableStore missing input history id when updating variable")))
    | None, Some _ =>
        (None, Err (InternalCalculatorError
                      (lit "VariableStore was provided an input history id but no database when updating variable")))
    | None, None => (None, Ok tt)
    end in
  (vs_insert vars name value, db', result).

(** src/variable.rs:55-74 [touch] *)
Definition vs_touch (vars : vstore) (name : str) (maybe_id : option Z)
           (maybe_db : option saved_data) : vs_result unit :=
  let '(db', result) :=
    match maybe_db, maybe_id with
    | Some db, Some id => db_result (touch_variable name id db)
    | Some db, None =>
        (Some db, Err (InternalCalculatorError
                         (lit "VariableStore missing input history id when touching variable")))
    | None, Some _ =>
        (None, Err (InternalCalculatorError
                      (lit "VariableStore was provided an input history id but no database when touching variable")))
    | None, None => (None, Ok tt)
    end in
  (vars, db', result).

(** src/variable.rs:100-111 [reload] *)
Definition vs_reload (vars : vstore) (name : str) (db : saved_data)
  : vstore * saved_data * outcome runtime_error (option Q) :=
  match get_variable name db with
  | (db', Ok (Some v)) => (vs_insert vars name v, db', Ok (Some v))
  | (db', Ok None) => (vars, db', Ok None)
  | (db', Err e) => (vars, db', Err e)
  | (db', Panic p) => (vars, db', Panic p)
  end.

(** src/variable.rs:78-95 [get] *)
Definition vs_lookup (vars : vstore) (name : str) (maybe_db : option saved_data)
  : vs_result (option Q) :=
  match vs_get vars name with
  | Some v => (vars, maybe_db, Ok (Some v))
  | None =>
      match maybe_db with
      | Some db => let '(vars', db', r) := vs_reload vars name db in (vars', Some db', r)
      | None => (vars, None, Ok None)
      end
  end.

(** src/variable.rs:117-129 [purge] *)
Definition vs_purge (vars : vstore) (name : str) (maybe_db : option saved_data) : vs_result unit :=
  let vars' := vs_remove vars name in
  match maybe_db with
  | Some db => let '(db', r) := clear_variable name db in (vars', Some db', r)
  | None => (vars', None, Ok tt)
  end.
