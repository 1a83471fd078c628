(** SpecHistory.v -- what the saved data is supposed to be: a bounded queue of inputs and a map of
    variables, each tied to an input.  Nothing here mentions tables or links except
    [linked_list], the shape C38 claims for the stored history. *)
From Verif Require Import Base SpecDecimal Position Num TokenTypes Errors SavedData Sessions.
From Coq Require Import String Sorted.
Local Open Scope list_scope.

(** The saved data: capacity, inputs (oldest first) with their identifiers, and for every variable
    its value and the identifier of the input that last set or used it. *)
Record store := mkStore
  { st_cap : Z; st_inputs : list (Z * str); st_vars : str -> option (Q * Z) }.

(** The newest [n] elements. *)
Definition newest {A} (n : Z) (l : list A) : list A := skipn (List.length l - Z.to_nat n) l.
Definition has_input (l : list (Z * str)) (id : Z) : bool := existsb (fun e => Z.eqb (fst e) id) l.
(** Keep the newest [cap] inputs, and only the variables last used by one of those. *)
Definition shrink (cap : Z) (inputs : list (Z * str)) (vars : str -> option (Q * Z)) : store :=
  let kept := newest cap inputs in
  mkStore cap kept
    (fun x => match vars x with
              | Some (q, id) => if has_input kept id then Some (q, id) else None
              | None => None
              end).
(** Identifier of the next input: one more than that of the newest. *)
Definition next_id (inputs : list (Z * str)) : Z :=
  match rev inputs with [] => 1%Z | e :: _ => (fst e + 1)%Z end.
Definition set_var (vars : str -> option (Q * Z)) (x : str) (e : option (Q * Z)) : str -> option (Q * Z) :=
  fun y => if str_eqb y x then e else vars y.

(** What a call that meets no external failure does to the saved data, and its reply. *)
Definition spec_call (c : call) (st : store) : store * reply :=
  match c with
  | AddInput text =>
      let id := next_id (st_inputs st) in
      (shrink (st_cap st) (st_inputs st ++ [(id, text)]) (st_vars st), RId id)
  | SetVariable x q id =>
      if has_input (st_inputs st) id
      then (mkStore (st_cap st) (st_inputs st) (set_var (st_vars st) x (Some (q, id))), RDone)
      else (st, RError SqliteConstraint)
  | TouchVariable x id =>
      match st_vars st x with
      | None => (st, RDone)
      | Some (q, _) =>
          if has_input (st_inputs st) id
          then (mkStore (st_cap st) (st_inputs st) (set_var (st_vars st) x (Some (q, id))), RDone)
          else (st, RError SqliteConstraint)
      end
  | GetVariable x => (st, RValue (option_map fst (st_vars st x)))
  | ClearVariable x => (mkStore (st_cap st) (st_inputs st) (set_var (st_vars st) x None), RDone)
  | GetMax => (st, RMax (st_cap st))
  | SetMax n =>
      if Z.ltb n 1
      then (st, RError (CalculatorDatabaseInconsistencyError
                          (lit "Attempted to set a maximum history size that is not valid")))
      else (shrink n (st_inputs st) (st_vars st), RDone)
  | Open | PrevInput => (st, RDone)
  end.

Definition same_store (a b : store) : Prop :=
  st_cap a = st_cap b /\ st_inputs a = st_inputs b /\ forall x, st_vars a x = st_vars b x.

(** The world: the saved data once somebody opened the file, and for each open session the
    inputs saved when it opened that it has not fetched yet, newest first. *)
Record sworld := mkSWorld
  { sw_store : option store; sw_left : nat -> option (list (Z * str)) }.
Definition set_left (f : nat -> option (list (Z * str))) (i : nat) (l : list (Z * str)) :=
  fun j => if Nat.eqb j i then Some l else f j.
Definition first_store : store := mkStore 100 [] (fun _ => None).

(** One call by session [i] with its possible replies. *)
Inductive sstep (i : nat) (fault : bool) : call -> sworld -> sworld -> reply -> Prop :=
| ss_fault : forall c w, fault = true -> (c = Open \/ sw_left w i <> None) ->
    sstep i fault c w w (RError SqliteError)
| ss_closed : forall c w, c <> Open -> sw_left w i = None -> sstep i fault c w w RClosed
| ss_create : forall l, fault = false ->
    sstep i fault Open (mkSWorld None l) (mkSWorld (Some first_store) (set_left l i [])) RDone
| ss_open : forall st l, fault = false ->
    sstep i fault Open (mkSWorld (Some st) l)
          (mkSWorld (Some st) (set_left l i (rev (st_inputs st)))) RDone
| ss_prev : forall st l id t rest, fault = false -> l i = Some ((id, t) :: rest) -> In (id, t) (st_inputs st) ->
    sstep i fault PrevInput (mkSWorld (Some st) l) (mkSWorld (Some st) (set_left l i rest)) (RInput (Some t))
| ss_prev_end : forall st l left, l i = Some left -> (forall e, In e left -> ~ In (fst e) (map fst (st_inputs st))) ->
    sstep i fault PrevInput (mkSWorld (Some st) l) (mkSWorld (Some st) l) (RInput None)
| ss_call : forall c st l, fault = false -> l i <> None -> c <> Open -> c <> PrevInput ->
    sstep i fault c (mkSWorld (Some st) l) (mkSWorld (Some (fst (spec_call c st))) l) (snd (spec_call c st)).

Definition sfresh : sworld := mkSWorld None (fun _ => None).
Inductive srun : schedule -> sworld -> sworld -> list reply -> Prop :=
| sr_nil : forall w, srun [] w w []
| sr_cons : forall i fault c rest w w1 w2 r rs,
    sstep i fault c w w1 r -> srun rest w1 w2 rs -> srun ((i, fault, c) :: rest) w w2 (r :: rs).

(** Rationals are always in lowest terms in the program. *)
Definition lowest_terms (sch : schedule) : Prop :=
  forall i fault x q id, In (i, fault, SetVariable x q id) sch -> canon q.

(** The stored history as a doubly linked list from oldest to newest. *)
Definition linked_list (rows : list hist_row) : Prop :=
  forall k r, nth_error rows k = Some r ->
    h_next r = option_map h_id (nth_error rows (S k)) /\
    h_prev r = match k with O => None | S j => option_map h_id (nth_error rows j) end /\
    (forall r', nth_error rows (S k) = Some r' -> (h_id r < h_id r')%Z).
Definition well_formed (d : database) : Prop :=
  exists rows,
    (forall r, In r rows <-> In r (d_hist d)) /\ NoDup (map h_id (d_hist d)) /\
    linked_list rows /\
    zassoc tag_Front (d_tags d) = Some (option_map h_id (hd_error (rev rows))) /\
    zassoc tag_Back (d_tags d) = Some (option_map h_id (hd_error rows)) /\
    (forall v, In v (d_vars d) -> exists r, In r rows /\ h_id r = v_used v) /\
    NoDup (map v_name (d_vars d)).

(** ** Reading the file *)
Definition inputs_of (d : database) : list (Z * str) := map (fun r => (h_id r, h_input r)) (d_hist d).
Definition ids_of (d : database) : list Z := map fst (inputs_of d).
Definition capacity (d : database) (n : Z) : Prop := zassoc meta_MaxHistorySize (d_meta d) = Some n.
(** Variable [x] is on disk with value [q], last set or used by input [id]. *)
Definition saved (d : database) (x : str) (q : Q) (id : Z) : Prop :=
  exists r, In r (d_vars d) /\ v_name r = x /\
    canon q /\ v_numer r = in_decimal (Qnum q) /\ v_denom r = in_decimal (Zpos (Qden q)) /\ v_used r = id.

(** The worlds that schedules lead to, starting with no database at all. *)
Definition reachable (w : world) : Prop :=
  exists sch, lowest_terms sch /\ w = fst (run sch fresh).
Definition is_open (w : world) (i : nat) : Prop := w_pos w i <> None.

(** The identifiers a run handed out, in order. *)
Definition ids_given (rs : list reply) : list Z :=
  List.concat (map (fun r => match r with RId id => [id] | _ => [] end) rs).
(** The lines session [i] got from disk in a run, in order. *)
Definition fetched (i : nat) (sch : schedule) (rs : list reply) : list str :=
  List.concat (map (fun p => match p with
                        | ((j, _, PrevInput), RInput (Some t)) => if Nat.eqb j i then [t] else []
                        | _ => []
                        end) (combine sch rs)).
(** Nobody stores or deletes variable [x]. *)
Definition leaves_alone (x : str) (sch : schedule) : Prop :=
  forall i fault c, In (i, fault, c) sch ->
    (forall q id, c <> SetVariable x q id) /\ c <> ClearVariable x.
Definition does_not_open (i : nat) (sch : schedule) : Prop :=
  forall fault, ~ In (i, fault, Open) sch.
