(** SpecInterleave.v -- what programs sharing a file, interleaved call by call, are supposed to do. *)
From Verif Require Import Base Position Num TokenTypes Errors Token SavedData Variables InputHistory SpecPrint
  SyntaxTree Commands Calculate Editor Sessions Main Together Interleave SpecGrammar SpecEval SpecHistory SpecSyntax SpecEditor SpecCalc SpecSession SpecCommands SpecData SpecMain SpecTogether.
From Coq Require Import String.
Local Open Scope list_scope.

(** Nobody is there yet, and the file is [d]. *)
Definition empty_room (d : database) : room := mkRoom d (fun _ => None).
(** The programs start with acceptable settings; their databases work. *)
Definition proper_turn (tn : turn) : Prop := match tn with Enters _ a _ => valid_settings a | _ => True end.
Definition calm_turn (tn : turn) : Prop := match tn with Enters _ _ (Some faults) => ~ In true faults | _ => True end.

(** What the programs write to their terminals during the turns. *)
Fixpoint room_output (pr : profile) (ord : nat -> nat -> list str -> list str) (x : executor)
         (tm : nat -> terminal) (turns : list turn) (w : room) : list tcmd :=
  match turns with
  | [] => []
  | tn :: rest => snd (room_step pr ord x tm tn w) ++ room_output pr ord x tm rest (fst (room_step pr ord x tm tn w))
  end.
(** The content of the file before, between and after the turns. *)
Fixpoint room_files (pr : profile) (ord : nat -> nat -> list str -> list str) (x : executor)
         (tm : nat -> terminal) (turns : list turn) (w : room) : list database :=
  r_file w :: match turns with [] => [] | tn :: rest => room_files pr ord x tm rest (fst (room_step pr ord x tm tn w)) end.

(** The same programs in the same states on the same file. *)
Definition same_room (w w' : room) : Prop := r_file w = r_file w' /\ forall i, r_seat w i = r_seat w' i.
(** The programs of a desk (Together.v), between two events. *)
Definition room_of (k : desk) : room :=
  mkRoom (k_file k) (fun i => match k_seat k i with Some (u, e) => Some (Resting u e) | None => None end).

(** ** One line *)
(** The program on seat [i] is in the middle of a line. *)
Definition midline (i : nat) (w : room) : Prop := exists u t, r_seat w i = Some (Working u t).
(** [P] holds before, between and after the turns. *)
Fixpoint throughout (pr : profile) (ord : nat -> nat -> list str -> list str) (x : executor)
         (tm : nat -> terminal) (P : room -> Prop) (turns : list turn) (w : room) : Prop :=
  P w /\ match turns with [] => True | tn :: rest => throughout pr ord x tm P rest (fst (room_step pr ord x tm tn w)) end.
(** The turns from a press of Enter in program [i] to the end of that line: any turns of anybody in between, and then the
    turn that completes the line. *)
Definition line_turns (i : nat) (mods : N) (between : list turn) : list turn :=
  Receives i (EvKey KEnter mods) :: between ++ [Goes i].
(** In room [w] program [i] waits for an event, in state [u]; it receives Enter, is in the middle of the line during all
    the turns in between, and then has completed it: it has written [out] and is in state [u'], standing as [e] says. *)
Definition processes (pr : profile) (ord : nat -> nat -> list str -> list str) (x : executor)
           (tm : nat -> terminal) (w : room) (i : nat) (mods : N) (between : list turn)
           (u u' : ui) (e : ending) (out : list tcmd) : Prop :=
  r_seat w i = Some (Resting u Running) /\
  let w1 := fst (room_step pr ord x tm (Receives i (EvKey KEnter mods)) w) in
  throughout pr ord x tm (midline i) between w1 /\
  let last_turn := room_step pr ord x tm (Goes i) (room_run pr ord x tm between w1) in
  r_seat (fst last_turn) i = Some (Resting u' e) /\ snd last_turn = out.

(** [r] is the reply shown by the output of the completed line: its text is printed (and then the next line starts), or
    the program has crashed. *)
Definition replied (u u' : ui) (e : ending) (out : list tcmd) (r : outcome failure str) : Prop :=
  match r with
  | Panic p => e = Panicked p
  | _ => exists text rows rest, reply_text r text /\ rows_of text rows /\
           out = flat_map (row_output (a_alternate_screen (u_args u))) rows ++ rest /\ u_count u' = S (u_count u)
  end.

(** A value for every variable: the one the program remembers; for a variable it does not remember, the one in the file at
    one of these moments, or none if it was not in the file at one of them. *)
Definition seen_at (files : list database) (m : vstore) (val : str -> option Q) : Prop :=
  forall y, match vs_get m y with
            | Some v => val y = Some v
            | None => exists d, In d files /\
                match val y with Some v => on_disk d y v | None => not_on_disk d y end
            end.
Definition has_values (val : str -> option Q) (y : str) (p : position) (r : result) : Prop :=
  match val y with
  | Some v => exists q, r = Value q /\ (q == v)%Q
  | None => r = Fails (unknown_variable y p)
  end.
(** What an expression line with tokens [ts] comes to when the variables have these values. *)
Inductive answers (pr : profile) (a : args) (val : str -> option Q) (ts : list ptoken) : outcome failure str -> Prop :=
| an_blank : ts = [] -> answers pr a val ts (Ok [])
| an_value : forall n v text, derives 5 ts n \/ (exists y, assignment ts y n) ->
    meaning (has_values val) (power_with pr a) n (Value v) -> canon v ->
    result_text a v text -> answers pr a val ts (Ok text)
| an_fails : forall n e, derives 5 ts n \/ (exists y, assignment ts y n) ->
    meaning (has_values val) (power_with pr a) n (Fails e) -> answers pr a val ts (Err e)
| an_crashes : forall n p, derives 5 ts n \/ (exists y, assignment ts y n) ->
    meaning (has_values val) (power_with pr a) n Crashes -> answers pr a val ts (Panic p)
| an_syntax : forall text p, ts <> [] -> (forall t, ~ line_tree ts t) -> syntax_complaint ts text p ->
    answers pr a val ts (Err (InputError (mkMP text (Some p)))).

(** The values remembered after an expression line with reply [r]: those remembered before, and values the file had at one
    of these moments (nothing is said about a variable the line assigns, unless the line was refused). *)
Definition remembered_after (files : list database) (ts : list ptoken) (m : vstore) (r : outcome failure str) (m' : vstore) : Prop :=
  forall y, (forall n, ~ assignment ts y n) \/ (exists msg, r = Err (InputError msg)) ->
    match vs_get m y with
    | Some v => vs_get m' y = Some v
    | None => forall v, vs_get m' y = Some v -> exists d, In d files /\ on_disk d y v
    end.

(** ** The history *)
(** What a turn does to the history: the program whose next call records its line records it, the one whose next call sets the
    capacity sets it. *)
Inductive history_event := Recorded (i : nat) (line : str) | Resized (n : Z).
Definition history_event_of (tn : turn) (w : room) : list history_event :=
  match tn with
  | Goes i =>
      match r_seat w i with
      | Some (Working _ (Ask (AddInput line) _)) => [Recorded i line]
      | Some (Working _ (Ask (SetMax n) _)) => [Resized n]
      | _ => []
      end
  | _ => []
  end.
Fixpoint history_events (pr : profile) (ord : nat -> nat -> list str -> list str) (x : executor)
         (tm : nat -> terminal) (turns : list turn) (w : room) : list history_event :=
  match turns with
  | [] => []
  | tn :: rest => history_event_of tn w ++ history_events pr ord x tm rest (fst (room_step pr ord x tm tn w))
  end.
(** The history is a queue with a capacity: the oldest lines go when there are too many.  A capacity below 1 is refused. *)
Definition then_event (h : Z * list str) (e : history_event) : Z * list str :=
  let '(cap, lines) := h in
  match e with
  | Recorded _ line => (cap, newest cap (lines ++ [line]))
  | Resized n => if (n <? 1)%Z then (cap, lines) else (n, newest n lines)
  end.
Definition has_history (d : database) (h : Z * list str) : Prop := capacity d (fst h) /\ texts_of d = snd h.
Definition recorded_by (i : nat) (hs : list history_event) : list str :=
  flat_map (fun e => match e with Recorded j line => if Nat.eqb j i then [line] else [] | Resized _ => [] end) hs.
Definition never_resized (hs : list history_event) : Prop := forall n, ~ In (Resized n) hs.

(** ** Commands on the saved data *)
(** A saved variable was read: a value, or none.  This was true of the file [d]. *)
Definition true_of (d : database) (rd : str * option Q) : Prop :=
  match snd rd with Some q => on_disk d (fst rd) q | None => not_on_disk d (fst rd) end.
(** The readings were true, one after the other, at moments in this order. *)
Inductive read_in_turn : list database -> list (str * option Q) -> Prop :=
| rt_none : forall files, read_in_turn files []
| rt_wait : forall d files rds, read_in_turn files rds -> read_in_turn (d :: files) rds
| rt_read : forall d files rd rds, true_of d rd -> read_in_turn files rds -> read_in_turn (d :: files) (rd :: rds).
(** What is reported about a reading. *)
Definition reading_row (rd : str * option Q) : str :=
  match snd rd with
  | Some q => lit "Set " ++ fst rd ++ lit " to " ++ fraction_text q
  | None => fst rd ++ lit " unchanged"
  end.
(** The value of [y] after these readings: the last one read, and if none was read, the old one. *)
Fixpoint last_read (rds : list (str * option Q)) (y : str) (old : option Q) : option Q :=
  match rds with
  | [] => old
  | rd :: rest => last_read rest y (if str_eqb (fst rd) y then match snd rd with Some q => Some q | None => old end else old)
  end.

(** ** The file *)
(** The line uses, assigns, purges this variable; it sets the capacity. *)
Definition line_uses (radix : N) (line : str) (y : str) : Prop :=
  (exists ts, is_expression radix line ts /\ mentions ts y) \/
  (exists arguments names, is_command radix line (lit "reloadvar") arguments /\ variable_list arguments names /\ In y names).
Definition line_assigns (radix : N) (line : str) (y : str) : Prop :=
  exists ts n, is_expression radix line ts /\ assignment ts y n.
Definition line_purges (radix : N) (line : str) (y : str) : Prop :=
  exists arguments names, is_command radix line (lit "purgevar") arguments /\ variable_list arguments names /\ In y names.
Definition line_resizes (radix : N) (line : str) (n : Z) : Prop :=
  exists arguments, is_command radix line (lit "histcap") arguments /\ integers arguments [n] /\ (1 <= n)%Z.
(** What a program processing this line, which it has recorded under [id], may do to the file in one turn: record the
    line; nothing; note that a variable it uses was used; store a value of the variable it assigns; remove a variable it
    purges; set the capacity.  Everything else in the file stays. *)
Inductive own_turn (radix : N) (line : str) (id : Z) (d d' : database) : Prop :=
| ot_record : line_recorded d line id d' -> own_turn radix line id d d'
| ot_nothing : same_history d d' -> (forall z q k, saved d' z q k <-> saved d z q k) -> own_turn radix line id d d'
| ot_use : forall y, line_uses radix line y -> same_history d d' -> In id (ids_of d) ->
    (forall z q k, saved d' z q k <-> (z <> y /\ saved d z q k) \/ (z = y /\ k = id /\ exists k0, saved d z q k0)) ->
    own_turn radix line id d d'
| ot_assign : forall y v, line_assigns radix line y -> same_history d d' -> In id (ids_of d) ->
    (forall z q k, saved d' z q k <-> (z <> y /\ saved d z q k) \/ (z = y /\ k = id /\ q = v)) ->
    own_turn radix line id d d'
| ot_purge : forall y, line_purges radix line y -> same_history d d' ->
    (forall z q k, saved d' z q k <-> z <> y /\ saved d z q k) -> own_turn radix line id d d'
| ot_resize : forall n, line_resizes radix line n -> capacity d' n -> inputs_of d' = newest n (inputs_of d) ->
    (forall z q k, saved d' z q k <-> saved d z q k /\ In k (ids_of d')) -> own_turn radix line id d d'.
