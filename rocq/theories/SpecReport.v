(** SpecReport.v -- when a session may give up, and what it then says. *)
From Verif Require Import Base Position Num TokenTypes Errors Token SavedData Variables InputHistory
  SyntaxTree Commands Calculate Editor Main Report SpecEditor SpecMain.
From Coq Require Import String.
Local Open Scope nat_scope.
Local Open Scope list_scope.

(** The width the session goes by: it asks the terminal at the start of every line, and is told when it changes. *)
Fixpoint width_from (tm : terminal) (lines width : nat) (evs : list event) : nat :=
  match evs with
  | [] => width
  | EvResize w :: rest => width_from tm lines w rest
  | EvKey KEnter _ :: rest => width_from tm (S lines) (snd (tm (S lines))) rest
  | _ :: rest => width_from tm lines width rest
  end.
Definition window (m : machine) (evs : list event) : nat := width_from (m_terminal m) 0 (snd (m_terminal m 0)) evs.
(** The prompt and the marks for scrolled text leave no room for a character. *)
Definition too_narrow (o : options) (width : nat) : Prop := width < (if a_alternate_screen (o_args o) then 2 else 5).
(** Widths are 16-bit numbers. *)
Definition real_widths (m : machine) (evs : list event) : Prop :=
  (forall n, fits_u16 (snd (m_terminal m n))) /\ forall w, In (EvResize w) evs -> fits_u16 w.
(** The window was looked at: the session has just started, it was resized, or a new line was begun. *)
Definition looked (evs : list event) : Prop :=
  evs = [] \/ exists first ev, evs = first ++ [ev] /\ ((exists w, ev = EvResize w) \/ exists mods, ev = EvKey KEnter mods).

(** The session as it stands after the events. *)
Definition session_at (pr : profile) (ord : nat -> list str -> list str) (o : options) (m : machine) (evs : list event) (u : ui) : Prop :=
  exists x file db, executor_new (E := Empty_set) = Ok x /\
    (if o_no_db o then (m_file m, inr (Ok None)) else open_database m) = (file, inr (Ok db)) /\
    u = fst (fst (interactive pr ord x (m_terminal m) (o_args o) db evs)).

(** The reasons to give up after the events, and the message. *)
Inductive gives_up (pr : profile) (ord : nat -> list str -> list str) (foreign : main_error -> str) (o : options) (m : machine)
  : list event -> str -> Prop :=
| no_terminal : ~ terminal_starts o m -> gives_up pr ord foreign o m [] (foreign TerminalFailed)
| bad_root : o_no_db o = false -> m_root m = RootNotUnicode -> gives_up pr ord foreign o m [] (foreign BadRoot)
| no_directory : o_no_db o = false -> m_root m = RootSet -> m_directory m = false ->
    gives_up pr ord foreign o m [] (foreign DirectoryFailed)
| not_opened : uses_database o m -> hd false (m_faults m) = true -> gives_up pr ord foreign o m [] (foreign (Runtime SqliteError))
| narrow : forall evs, looked evs -> too_narrow o (window m evs) ->
    gives_up pr ord foreign o m evs (lit "CalculatorEnvironmentError { message: ""Window too narrow"" }")
| too_long : forall evs u line, session_at pr ord o m evs u -> shown (u_inputs u) = Ok line -> ~ fits_u16 (List.length line) ->
    gives_up pr ord foreign o m evs (lit "TryFromIntError(())")
| pasted : forall first, gives_up pr ord foreign o m (first ++ [EvPaste]) (lit "InternalCalculatorError { message: ""Paste unimplemented!"" }")
| not_read : forall first mods u sd, uses_database o m -> session_at pr ord o m first u -> u_db u = Some sd -> hd false (sd_faults sd) = true ->
    gives_up pr ord foreign o m (first ++ [EvKey KUp mods]) (foreign (Runtime SqliteError)).
