(** InputHistory.v -- model of src/input_history.rs. *)
From Verif Require Import Base Position Num TokenTypes Errors SavedData.
From Coq Require Import String.
Local Open Scope list_scope.

(** src/input_history.rs:20-51 *)
Record input_history := mkIH
  { ih_internal : list str;        (* primary_internal_history, oldest first *)
    ih_db : list str;              (* primary_db_history, newest first *)
    ih_current : list (option str);(* current_history *)
    ih_index : nat;                (* current_index *)
    ih_exhausted : bool }.         (* db_history_exhausted *)

(** src/input_history.rs:54-62 *)
Definition ih_new (use_db : bool) : input_history :=
  mkIH [] [] [Some []] 0 (negb use_db).

Definition nth_ok {E A} (l : list A) (i : nat) : outcome E A :=
  match nth_error l i with Some a => Ok a | None => Panic IndexOutOfBounds end.

(** src/input_history.rs:89-102 [current_line]; indexing panics are explicit, and so is
    the usize subtraction of line 95 (guarded by the test on line 93). *)
Definition current_line {E} (h : input_history) : outcome E str :=
  item <- nth_ok (ih_current h) (ih_index h) ;;
  match item with
  | Some s => Ok s
  | None =>
      if Nat.leb (ih_index h) (List.length (ih_internal h))
      then nth_ok (ih_internal h) (List.length (ih_internal h) - ih_index h)
      else nth_ok (ih_db h) (ih_index h - List.length (ih_internal h) - 1)
  end.

(** src/input_history.rs:69-86 [input_finished] *)
Definition input_finished (h : input_history) (maybe_db : option saved_data)
  : input_history * option saved_data * outcome runtime_error (option Z) :=
  match current_line h with
  | Panic p => (h, maybe_db, Panic p)
  | Err e => (h, maybe_db, Err e)
  | Ok line =>
      let h' := mkIH (ih_internal h ++ [line]) (ih_db h) [Some []] 0 (ih_exhausted h) in
      match maybe_db with
      | Some db =>
          match add_to_input_history line db with
          | (db', Ok id) => (h', Some db', Ok (Some id))
          | (db', Err e) => (h', Some db', Err e)
          | (db', Panic p) => (h', Some db', Panic p)
          end
      | None => (h', None, Ok None)
      end
  end.

(** src/input_history.rs:138-142: the part of [try_to_go_to_earlier_line] after the
    database part *)
Definition go_earlier (h : input_history) : input_history :=
  let cur := if Nat.leb (List.length (ih_current h)) (ih_index h + 1)
             then ih_current h ++ [None] else ih_current h in
  mkIH (ih_internal h) (ih_db h) cur (ih_index h + 1) (ih_exhausted h).

(** src/input_history.rs:109-143 [try_to_go_to_earlier_line] *)
Definition try_earlier (h : input_history) (maybe_db : option saved_data)
  : input_history * option saved_data * outcome runtime_error bool :=
  if Nat.leb (List.length (ih_internal h) + List.length (ih_db h)) (ih_index h) then
    if ih_exhausted h then (h, maybe_db, Ok false)
    else
      match maybe_db with
      | None =>
          (h, None, Err (InternalCalculatorError
             (lit "InputHistory constructed with `use_db = true`, but `try_to_go_to_earlier_line` was not passed a database.")))
      | Some db =>
          match get_prev_input_history db with
          | (db', Ok (Some input)) =>
              (go_earlier (mkIH (ih_internal h) (ih_db h ++ [input]) (ih_current h)
                                (ih_index h) (ih_exhausted h)), Some db', Ok true)
          | (db', Ok None) =>
              (mkIH (ih_internal h) (ih_db h) (ih_current h) (ih_index h) true, Some db', Ok false)
          | (db', Err e) => (h, Some db', Err e)
          | (db', Panic p) => (h, Some db', Panic p)
          end
      end
  else (go_earlier h, maybe_db, Ok true).

(** src/input_history.rs:148-154 [try_to_go_to_later_line] *)
Definition try_later (h : input_history) : input_history * bool :=
  match ih_index h with
  | O => (h, false)
  | S i => (mkIH (ih_internal h) (ih_db h) (ih_current h) i (ih_exhausted h), true)
  end.

Fixpoint list_set {A} (l : list A) (i : nat) (a : A) : list A :=
  match l, i with
  | [], _ => []
  | _ :: l', O => a :: l'
  | x :: l', S i' => x :: list_set l' i' a
  end.

(** src/input_history.rs:157-161 [ensure_current_line_populated] *)
Definition ensure_populated {E} (h : input_history) : outcome E input_history :=
  item <- nth_ok (ih_current h) (ih_index h) ;;
  match item with
  | Some _ => Ok h
  | None =>
      line <- current_line h ;;
      Ok (mkIH (ih_internal h) (ih_db h) (list_set (ih_current h) (ih_index h) (Some line))
               (ih_index h) (ih_exhausted h))
  end.

(** [String::insert(index, ch)] (ASCII): panics when [index > len] *)
Definition string_insert {E} (s : str) (i : nat) (c : char) : outcome E str :=
  if Nat.leb i (List.length s) then Ok (firstn i s ++ c :: skipn i s) else Panic IndexOutOfBounds.
(** [String::remove(index)] (ASCII): panics when [index >= len] *)
Definition string_remove {E} (s : str) (i : nat) : outcome E str :=
  if Nat.ltb i (List.length s) then Ok (firstn i s ++ skipn (S i) s) else Panic IndexOutOfBounds.

Definition edit_current {E} (f : str -> outcome E str) (h : input_history) : outcome E input_history :=
  h1 <- ensure_populated h ;;
  item <- nth_ok (ih_current h1) (ih_index h1) ;;
  match item with
  | None => Panic UnwrapFailed
  | Some s =>
      s' <- f s ;;
      Ok (mkIH (ih_internal h1) (ih_db h1) (list_set (ih_current h1) (ih_index h1) (Some s'))
               (ih_index h1) (ih_exhausted h1))
  end.

(** src/input_history.rs:165-171 [insert_char_into_current_line] *)
Definition insert_char {E} (h : input_history) (i : nat) (c : char) : outcome E input_history :=
  edit_current (fun s => string_insert s i c) h.
(** src/input_history.rs:175-181 [remove_char_from_current_line] *)
Definition remove_char {E} (h : input_history) (i : nat) : outcome E input_history :=
  edit_current (fun s => string_remove s i) h.
