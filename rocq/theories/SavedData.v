(** SavedData.v -- table-level model of src/saved_data.rs.
    A [database] is the content of the SQLite file: the four tables of the schema
    (src/saved_data.rs:141-228).  SQL statements are functions on it that enforce
    the declared foreign keys (PRAGMA foreign_keys = ON, line 137); a Rust
    transaction is a function that either yields the new content or fails, in
    which case the content is unchanged (rusqlite rolls back on drop). *)
From Verif Require Import Base Position Num TokenTypes Errors.
From Coq Require Import String.
Local Open Scope list_scope.

(** src/saved_data.rs:184-191 *)
Record hist_row := mkHist
  { h_id : Z; h_input : str; h_next : option Z; h_prev : option Z }.
(** src/saved_data.rs:221-226 *)
Record var_row := mkVar
  { v_name : str; v_numer : str; v_denom : str; v_used : Z }.
(** Tables meta_int, input_history, input_history_tags, variable_history.  A table that
    does not exist yet is the empty list. *)
Record database := mkDb
  { d_meta : list (Z * Z); d_hist : list hist_row;
    d_tags : list (Z * option Z); d_vars : list var_row }.

Definition empty_db : database := mkDb [] [] [] [].

(** src/saved_data.rs:11-16 *)
Definition CURRENT_DB_VERSION : Z := 1.
Definition MINIMUM_COMPATIBLE_DB_VERSION : Z := 1.
Definition DEFAULT_MAX_HISTORY_SIZE : Z := 100.
Definition VARIABLE_STORAGE_RADIX : N := 10.
(** src/saved_data.rs:18-27 [MetaInt] *)
Definition meta_Version : Z := 1.
Definition meta_MinimumVersion : Z := 2.
Definition meta_MaxHistorySize : Z := 3.
(** src/saved_data.rs:29-37 [InputHistoryTag] *)
Definition tag_Front : Z := 1.
Definition tag_Back : Z := 2.

(** ** SQL statements *)

Definition set_meta (d : database) m := mkDb m (d_hist d) (d_tags d) (d_vars d).
Definition set_hist (d : database) h := mkDb (d_meta d) h (d_tags d) (d_vars d).
Definition set_tags (d : database) t := mkDb (d_meta d) (d_hist d) t (d_vars d).
Definition set_vars (d : database) v := mkDb (d_meta d) (d_hist d) (d_tags d) v.

(** A statement / transaction body: fails or returns a value and the new content. *)
Definition tx (A : Type) := database -> outcome runtime_error (A * database).
Definition tx_ret {A} (a : A) : tx A := fun d => Ok (a, d).
Definition tx_fail {A} (e : runtime_error) : tx A := fun _ => Err e.
Definition tx_bind {A B} (m : tx A) (f : A -> tx B) : tx B :=
  fun d => match m d with
           | Ok (a, d') => f a d'
           | Err e => Err e
           | Panic p => Panic p
           end.
Notation "x <~ m ;; f" := (tx_bind m (fun x => f)) (at level 61, m at next level, right associativity).

Fixpoint zassoc {A} (k : Z) (m : list (Z * A)) : option A :=
  match m with
  | [] => None
  | (k', v) :: m' => if Z.eqb k k' then Some v else zassoc k m'
  end.
Definition zupdate {A} (k : Z) (v : A) (m : list (Z * A)) : list (Z * A) :=
  map (fun kv => if Z.eqb k (fst kv) then (fst kv, v) else kv) m.

(** [INSERT OR IGNORE INTO meta_int] *)
Definition sql_meta_insert_ignore (k v : Z) : tx unit := fun d =>
  match zassoc k (d_meta d) with
  | Some _ => Ok (tt, d)
  | None => Ok (tt, set_meta d (d_meta d ++ [(k, v)]))
  end.
(** [INSERT OR REPLACE INTO meta_int] *)
Definition sql_meta_insert_replace (k v : Z) : tx unit := fun d =>
  match zassoc k (d_meta d) with
  | Some _ => Ok (tt, set_meta d (zupdate k v (d_meta d)))
  | None => Ok (tt, set_meta d (d_meta d ++ [(k, v)]))
  end.
(** [SELECT value FROM meta_int WHERE key=:key] via [query_row] (no row: error) *)
Definition sql_meta_select (k : Z) : tx Z := fun d =>
  match zassoc k (d_meta d) with
  | Some v => Ok (v, d)
  | None => Err SqliteError
  end.

(** [INSERT OR IGNORE INTO input_history_tags (key, value) VALUES (:key, NULL)] *)
Definition sql_tag_insert_ignore (k : Z) : tx unit := fun d =>
  match zassoc k (d_tags d) with
  | Some _ => Ok (tt, d)
  | None => Ok (tt, set_tags d (d_tags d ++ [(k, None)]))
  end.
(** [SELECT value FROM input_history_tags WHERE key=:key] as [Option<i64>] *)
Definition sql_tag_select (k : Z) : tx (option Z) := fun d =>
  match zassoc k (d_tags d) with
  | Some v => Ok (v, d)
  | None => Err SqliteError
  end.
(** the same read as a non-null [i64] *)
Definition not_null (m : tx (option Z)) : tx Z :=
  v <~ m ;; match v with Some z => tx_ret z | None => tx_fail SqliteError end.

Definition hist_ids (h : list hist_row) : list Z := map h_id h.
Definition has_id (h : list hist_row) (id : Z) : bool := existsb (Z.eqb id) (hist_ids h).
(** foreign key: NULL or the id of a row *)
Definition fk_ok (h : list hist_row) (v : option Z) : bool :=
  match v with None => true | Some id => has_id h id end.

(** [UPDATE input_history_tags SET value=:v WHERE key=:k] *)
Definition sql_tag_update (k : Z) (v : option Z) : tx unit := fun d =>
  match zassoc k (d_tags d) with
  | None => Ok (tt, d)
  | Some _ => if fk_ok (d_hist d) v then Ok (tt, set_tags d (zupdate k v (d_tags d)))
              else Err SqliteConstraint
  end.

(** rowid allocation of [INTEGER PRIMARY KEY] without AUTOINCREMENT: one more than
    the largest in use (the 2^63-1 ceiling is not modelled). *)
Definition next_rowid (h : list hist_row) : Z :=
  match hist_ids h with
  | [] => 1%Z
  | x :: l => (fold_left Z.max l x + 1)%Z
  end.

(** [INSERT INTO input_history (input, next, prev) VALUES (:input, NULL, :prev)] followed
    by [last_insert_rowid()] *)
Definition sql_hist_insert (input : str) (prev : option Z) : tx Z := fun d =>
  let id := next_rowid (d_hist d) in
  let h := d_hist d ++ [mkHist id input None prev] in
  if fk_ok h prev then Ok (id, set_hist d h) else Err SqliteConstraint.

(** [UPDATE input_history SET next=:v WHERE id=:id] *)
Definition sql_hist_set_next (id : Z) (v : Z) : tx unit := fun d =>
  if has_id (d_hist d) id then
    if has_id (d_hist d) v
    then Ok (tt, set_hist d (map (fun r => if Z.eqb (h_id r) id
                                            then mkHist (h_id r) (h_input r) (Some v) (h_prev r)
                                            else r) (d_hist d)))
    else Err SqliteConstraint
  else Ok (tt, d).
(** [UPDATE input_history SET prev=NULL WHERE id=:id] *)
Definition sql_hist_clear_prev (id : Z) : tx unit := fun d =>
  Ok (tt, set_hist d (map (fun r => if Z.eqb (h_id r) id
                                     then mkHist (h_id r) (h_input r) (h_next r) None
                                     else r) (d_hist d))).
Fixpoint find_hist (h : list hist_row) (id : Z) : option hist_row :=
  match h with
  | [] => None
  | r :: h' => if Z.eqb (h_id r) id then Some r else find_hist h' id
  end.
(** [SELECT next FROM input_history WHERE id=:id] via [query_row] *)
Definition sql_hist_next (id : Z) : tx (option Z) := fun d =>
  match find_hist (d_hist d) id with
  | Some r => Ok (h_next r, d)
  | None => Err SqliteError
  end.
(** [SELECT COUNT( * ) FROM input_history] *)
Definition sql_hist_count : tx Z := fun d => Ok (Z.of_nat (List.length (d_hist d)), d).
(** [DELETE FROM input_history WHERE id=:id]: refused if a remaining history row or a
    tag still references it; variables last used by it are deleted (ON DELETE CASCADE). *)
Definition refers (id : Z) (v : option Z) : bool :=
  match v with Some z => Z.eqb z id | None => false end.
Definition sql_hist_delete (id : Z) : tx unit := fun d =>
  let h := filter (fun r => negb (Z.eqb (h_id r) id)) (d_hist d) in
  if has_id (d_hist d) id &&
     (existsb (fun r => refers id (h_next r) || refers id (h_prev r)) h
      || existsb (fun t => refers id (snd t)) (d_tags d))
  then Err SqliteConstraint
  else Ok (tt, mkDb (d_meta d) h (d_tags d)
                    (if has_id (d_hist d) id
                     then filter (fun v => negb (Z.eqb (v_used v) id)) (d_vars d)
                     else d_vars d)).

(** [INSERT INTO variable_history ...] with PRIMARY KEY ON CONFLICT REPLACE *)
Definition sql_var_insert (r : var_row) : tx unit := fun d =>
  if has_id (d_hist d) (v_used r)
  then Ok (tt, set_vars d (filter (fun v => negb (str_eqb (v_name v) (v_name r))) (d_vars d) ++ [r]))
  else Err SqliteConstraint.
(** [UPDATE variable_history SET last_used_by=:id WHERE name=:name] *)
Definition sql_var_touch (name : str) (id : Z) : tx unit := fun d =>
  if existsb (fun v => str_eqb (v_name v) name) (d_vars d) then
    if has_id (d_hist d) id
    then Ok (tt, set_vars d (map (fun v => if str_eqb (v_name v) name
                                            then mkVar (v_name v) (v_numer v) (v_denom v) id
                                            else v) (d_vars d)))
    else Err SqliteConstraint
  else Ok (tt, d).
Fixpoint find_var (l : list var_row) (name : str) : option var_row :=
  match l with
  | [] => None
  | r :: l' => if str_eqb (v_name r) name then Some r else find_var l' name
  end.
(** [DELETE FROM variable_history WHERE name=:name] *)
Definition sql_var_delete (name : str) : tx unit := fun d =>
  Ok (tt, set_vars d (filter (fun v => negb (str_eqb (v_name v) name)) (d_vars d))).

(** ** The methods of SavedData *)

(** src/saved_data.rs:530-535 *)
Definition validate_max_history_size (value : Z) : option str :=
  if Z.ltb value 1 then Some (lit "Maximum history size must be at least 1") else None.

(** src/saved_data.rs:483-495 *)
Definition tx_get_max : tx Z := sql_meta_select meta_MaxHistorySize.

(** src/saved_data.rs:314-354: the eviction loop *)
Fixpoint tx_evict_loop (fuel : nat) (max : Z) : tx unit :=
  match fuel with
  | O => fun _ => Panic OutOfFuel
  | S f =>
      size <~ sql_hist_count ;;
      if Z.leb size max then tx_ret tt
      else
        old_back <~ not_null (sql_tag_select tag_Back) ;;
        new_back <~ not_null (sql_hist_next old_back) ;;
        _ <~ sql_hist_clear_prev new_back ;;
        _ <~ sql_tag_update tag_Back (Some new_back) ;;
        _ <~ sql_hist_delete old_back ;;
        tx_evict_loop f max
  end.

(** src/saved_data.rs:302-357 [enforce_history_size_with_transaction] *)
Definition tx_enforce : tx unit :=
  max <~ tx_get_max ;;
  match validate_max_history_size max with
  | Some _ => tx_fail (CalculatorDatabaseInconsistencyError
                         (lit "Stored maximum history size is not valid"))
  | None => fun d => tx_evict_loop (S (List.length (d_hist d))) max d
  end.

(** src/saved_data.rs:243-300 [add_to_input_history], the transaction body *)
Definition tx_add (input : str) : tx Z :=
  orig_front <~ sql_tag_select tag_Front ;;
  id <~ sql_hist_insert input orig_front ;;
  _ <~ sql_tag_update tag_Front (Some id) ;;
  _ <~ (match orig_front with
        | Some front => sql_hist_set_next front id
        | None => sql_tag_update tag_Back (Some id)
        end) ;;
  _ <~ tx_enforce ;;
  tx_ret id.

(** src/saved_data.rs:393-409 [set_variable]; [to_str_radix(10)] cannot panic *)
Definition tx_set_variable (name : str) (value : Q) (id : Z) : tx unit := fun d =>
  numer <- to_str_radix (Qnum value) VARIABLE_STORAGE_RADIX ;;
  denom <- to_str_radix (Zpos (Qden value)) VARIABLE_STORAGE_RADIX ;;
  sql_var_insert (mkVar name numer denom id) d.

(** src/saved_data.rs:412-425 *)
Definition tx_touch_variable (name : str) (id : Z) : tx unit := sql_var_touch name id.

(** src/saved_data.rs:428-471 [get_variable] *)
Definition tx_get_variable (name : str) : tx (option Q) := fun d =>
  match find_var (d_vars d) name with
  | None => Ok (None, d)
  | Some r =>
      n <- parse_bytes (v_numer r) VARIABLE_STORAGE_RADIX ;;
      match n with
      | None => Err (CalculatorDatabaseInconsistencyError
                       (lit "Stored numerator (" ++ v_numer r ++ lit ") for variable '" ++ name
                        ++ lit "' cannot be parsed"))
      | Some numer =>
          m <- parse_bytes (v_denom r) VARIABLE_STORAGE_RADIX ;;
          match m with
          | None => Err (CalculatorDatabaseInconsistencyError
                           (lit "Stored denominator (" ++ v_denom r ++ lit ") for variable '" ++ name
                            ++ lit "' cannot be parsed"))
          | Some denom => v <- ratio_new numer denom ;; Ok (Some v, d)
          end
      end
  end.

(** src/saved_data.rs:473-481 *)
Definition tx_clear_variable (name : str) : tx unit := sql_var_delete name.

(** src/saved_data.rs:507-527 [set_max_history_size].  Simplification: the code checks the size before
    it begins the transaction, here the check is part of it; the two differ only in which error an invalid
    size gets when the database fails too, and /histcap (src/commands.rs:430) never passes one. *)
Definition tx_set_max (size : Z) : tx unit :=
  match validate_max_history_size size with
  | Some _ => tx_fail (CalculatorDatabaseInconsistencyError
                         (lit "Attempted to set a maximum history size that is not valid"))
  | None =>
      _ <~ sql_meta_insert_replace meta_MaxHistorySize size ;;
      tx_enforce
  end.

(** src/saved_data.rs:139-230 [open], the transaction body; returns [initial_front].
    CREATE TABLE IF NOT EXISTS is the identity here (absent table = empty list). *)
Definition tx_open : tx (option Z) :=
  _ <~ sql_meta_insert_ignore meta_MinimumVersion MINIMUM_COMPATIBLE_DB_VERSION ;;
  minimum_version <~ sql_meta_select meta_MinimumVersion ;;
  if Z.ltb CURRENT_DB_VERSION minimum_version then
    tx_fail (CalculatorDatabaseInconsistencyError
               (lit "Database version is not compatible with executable version"))
  else
    _ <~ sql_meta_insert_ignore meta_Version CURRENT_DB_VERSION ;;
    _ <~ sql_meta_insert_ignore meta_MaxHistorySize DEFAULT_MAX_HISTORY_SIZE ;;
    _ <~ sql_tag_insert_ignore tag_Front ;;
    _ <~ sql_tag_insert_ignore tag_Back ;;
    sql_tag_select tag_Front.

(** src/saved_data.rs:108-113 [struct SavedData]: the connection (here: the current
    content of the shared file), the scrollback position, and -- model only -- the
    schedule of external SQLite failures: each API call consumes one element, [true]
    meaning that SQLite reports an error (I/O, busy, disk full, ...) and rolls back. *)
Record saved_data := mkSD
  { sd_db : database; sd_pos : option Z; sd_faults : list bool }.

(** One API call on the connection: commit on success, roll back on failure. *)
Definition sd_call {A} (f : tx A) (sd : saved_data) : saved_data * outcome runtime_error A :=
  match sd_faults sd with
  | true :: fs => (mkSD (sd_db sd) (sd_pos sd) fs, Err SqliteError)
  | _ =>
      match f (sd_db sd) with
      | Ok (a, d') => (mkSD d' (sd_pos sd) (tl (sd_faults sd)), Ok a)
      | Err e => (mkSD (sd_db sd) (sd_pos sd) (tl (sd_faults sd)), Err e)
      | Panic p => (mkSD (sd_db sd) (sd_pos sd) (tl (sd_faults sd)), Panic p)
      end
  end.

(** src/saved_data.rs:123-236 [open] on an existing or fresh file (the
    environment variable and the directory creation, src/saved_data.rs:123-134, are in Main.v,
    [open_database]). Returns the file content and the handle. *)
Definition sd_open (faults : list bool) (file : database) : database * outcome runtime_error saved_data :=
  match sd_call tx_open (mkSD file None faults) with
  | (sd, Ok front) => (sd_db sd, Ok (mkSD (sd_db sd) front (sd_faults sd)))
  | (sd, Err e) => (sd_db sd, Err e)
  | (sd, Panic p) => (sd_db sd, Panic p)
  end.

Definition add_to_input_history (input : str) := sd_call (tx_add input).
Definition set_variable (name : str) (value : Q) (id : Z) := sd_call (tx_set_variable name value id).
Definition touch_variable (name : str) (id : Z) := sd_call (tx_touch_variable name id).
Definition get_variable (name : str) := sd_call (tx_get_variable name).
Definition clear_variable (name : str) := sd_call (tx_clear_variable name).
(** src/saved_data.rs:497-502 *)
Definition get_max_history_size := sd_call tx_get_max.
Definition set_max_history_size (size : Z) := sd_call (tx_set_max size).

(** src/saved_data.rs:363-390 [get_prev_input_history] *)
Definition get_prev_input_history (sd : saved_data)
  : saved_data * outcome runtime_error (option str) :=
  match sd_pos sd with
  | None => (sd, Ok None)
  | Some next_id =>
      match sd_call (fun d => Ok (find_hist (d_hist d) next_id, d)) sd with
      | (sd', Ok None) => (mkSD (sd_db sd') None (sd_faults sd'), Ok None)
      | (sd', Ok (Some r)) => (mkSD (sd_db sd') (h_prev r) (sd_faults sd'), Ok (Some (h_input r)))
      | (sd', Err e) => (sd', Err e)
      | (sd', Panic p) => (sd', Panic p)
      end
  end.
