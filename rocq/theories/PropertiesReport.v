(** PropertiesReport.v -- a session gives up only when it must, and says why on the standard error (C107). *)
From Verif Require Import Base Position Num TokenTypes Errors Token Operations SavedData Variables InputHistory
  SyntaxTree Commands Calculate Editor Sessions Main Report SpecLex SpecGrammar SpecEval SpecHistory SpecSyntax SpecEditor SpecCalc SpecSession SpecMain SpecReport.
From Verif Require Import ProofsDb4 ProofsCalc ProofsCalc4 ProofsCalc10 ProofsMain ProofsMain2 ProofsMain3 ProofsReport PropertiesCalc PropertiesEditor PropertiesMain.
From Coq Require Import String Lia.
Local Open Scope nat_scope.
Local Open Scope list_scope.

(** ** C107 *)
(** A run that ends with an error gave up after some of the events, and not before, for one of the listed reasons; what it
    writes to the standard error is [Error: ], the message of that reason, and a newline.  SQLite may refuse any call. *)
Theorem C107_gives_up : forall pr ord foreign crash o m evs e,
  (forall n, iterates (ord n)) -> valid_settings (o_args o) -> made_file (m_file m) -> real_widths m evs ->
  out_ending (main pr ord o m evs) = FailedWith e ->
  exists first rest text, evs = first ++ rest /\
    (forall a b, first = a ++ b -> b <> [] -> out_ending (main pr ord o m a) = Running) /\
    gives_up pr ord foreign o m first text /\
    standard_error foreign crash (main pr ord o m evs) = lit "Error: " ++ text ++ lit (String (Ascii.ascii_of_nat 10) "").
Proof.
  intros pr ord foreign crash o m evs e Ho Ha Hm Fw F. destruct (o_input o) as [input|] eqn:Hi.
  { exfalso. rewrite main_unfold, Hi in F. destruct (one_shot pr (ord 0) (o_args o) input) as [x|x|x|x] eqn:O; try discriminate F. exact (one_shot_no_runtime _ _ _ _ _ Ha O). }
  assert (Er : standard_error foreign crash (main pr ord o m evs) = lit "Error: " ++ debug_error foreign e ++ [c_newline]).
  { unfold standard_error. rewrite F, (main_quiet pr ord o m evs Hi). reflexivity. }
  destruct (starts_or o m) as [St|St].
  - destruct (started_why pr ord foreign o m Ho Ha Hm Hi St evs e Fw F) as (first & rest & Q & Pre & G). exists first, rest, (debug_error foreign e). auto.
  - destruct (no_start pr ord o m evs Hi St) as (F' & _). rewrite F' in F. injection F as <-. exists [], evs, (foreign TerminalFailed). split; [reflexivity|]. split.
    + intros a b Q N. destruct a; [|discriminate Q]. destruct b; [destruct (N eq_refl)|discriminate Q].
    + split; [apply no_terminal, St|exact Er].
Qed.
Print Assumptions C107_gives_up.

(** Conversely: a session that goes on has room in its window; it gives up when something is pasted, when the window becomes
    too narrow, and it does not outlive the start of a line in a window too narrow for it. *)
Theorem C107_must : forall pr ord foreign crash o m evs,
  (forall n, iterates (ord n)) -> valid_settings (o_args o) -> made_file (m_file m) -> real_widths m evs -> o_input o = None -> terminal_starts o m ->
  out_ending (main pr ord o m evs) = Running ->
  ~ too_narrow o (window m evs) /\
  standard_error foreign crash (main pr ord o m (evs ++ [EvPaste])) =
    lit "Error: InternalCalculatorError { message: ""Paste unimplemented!"" }" ++ [c_newline] /\
  (forall w, too_narrow o w -> standard_error foreign crash (main pr ord o m (evs ++ [EvResize w])) =
    lit "Error: CalculatorEnvironmentError { message: ""Window too narrow"" }" ++ [c_newline]) /\
  (forall mods, too_narrow o (window m (evs ++ [EvKey KEnter mods])) -> ended (out_ending (main pr ord o m (evs ++ [EvKey KEnter mods])))).
Proof.
  intros pr ord foreign crash o m evs Ho Ha Hm Fw Hi St R. split; [exact (proj1 (running_session pr ord foreign o m Ho Ha Hm Hi St evs Fw R))|]. split; [|split].
  - unfold standard_error. rewrite (paste_ends pr ord foreign o m Ho Ha Hm Hi St evs Fw R), (main_quiet pr ord o m _ Hi). reflexivity.
  - intros w N. unfold standard_error. rewrite (shrink_ends pr ord foreign o m Ho Ha Hm Hi St evs w Fw R N), (main_quiet pr ord o m _ Hi). reflexivity.
  - intros mods N. unfold ended. destruct (out_ending (main pr ord o m (evs ++ [EvKey KEnter mods]))) eqn:E; cbn; try (eexists; reflexivity).
    exfalso. assert (Fw' : real_widths m (evs ++ [EvKey KEnter mods])).
    { destruct Fw as (F1 & F2). split; [exact F1|]. intros w I. apply in_app_or in I as [I|[I|[]]]; [exact (F2 w I)|discriminate I]. }
    exact (proj1 (running_session pr ord foreign o m Ho Ha Hm Hi St _ Fw' E) N).
Qed.
Print Assumptions C107_must.

(** A session that has not failed, and has not crashed, has written nothing to the standard error. *)
Theorem C107_quiet : forall pr ord foreign crash o m evs, o_input o = None ->
  out_ending (main pr ord o m evs) = Running \/ out_ending (main pr ord o m evs) = Succeeded ->
  standard_error foreign crash (main pr ord o m evs) = [].
Proof. intros pr ord foreign crash o m evs Hi [E|E]; unfold standard_error; rewrite E, (main_quiet pr ord o m evs Hi); reflexivity. Qed.
Print Assumptions C107_quiet.

(** A file of a newer version, whatever else it contains, is refused, with this message. *)
Theorem C107_newer : forall pr ord foreign crash o m evs v, uses_database o m -> terminal_starts o m -> hd false (m_faults m) = false ->
  zassoc meta_MinimumVersion (d_meta (m_file m)) = Some v -> (1 < v)%Z ->
  standard_error foreign crash (main pr ord o m evs) =
    lit "Error: CalculatorDatabaseInconsistencyError { message: ""Database version is not compatible with executable version"" }" ++ [c_newline] /\
  out_file (main pr ord o m evs) = m_file m.
Proof.
  intros pr ord foreign crash o m evs v (Hi & Nd & Rt & Dr) St Hf Hz Hv.
  assert (Op : open_database m = (m_file m, inr (Err (CalculatorDatabaseInconsistencyError (lit "Database version is not compatible with executable version"))))).
  { unfold open_database. rewrite Rt, Dr. unfold sd_open, sd_call. cbn [sd_faults sd_db sd_pos].
    assert (E : tx_open (m_file m) = Err (CalculatorDatabaseInconsistencyError (lit "Database version is not compatible with executable version"))).
    { unfold tx_open, tx_bind, sql_meta_insert_ignore, sql_meta_select. rewrite Hz. cbv iota beta. rewrite Hz. cbv iota beta. change CURRENT_DB_VERSION with 1%Z. destruct (Z.ltb_spec 1 v); [reflexivity|lia]. }
    destruct (m_faults m) as [|[|] fs]; [|discriminate Hf|]; rewrite E; reflexivity. }
  assert (Ic : interactive_calc pr ord the_executor o m evs = (m_file m, o_args o, [], FailedWith (Runtime (CalculatorDatabaseInconsistencyError (lit "Database version is not compatible with executable version"))))).
  { unfold interactive_calc. rewrite Nd, Op. reflexivity. }
  split.
  - unfold standard_error. destruct (main_err pr ord o m evs _ Hi St eq_refl) as (-> & ->). rewrite Ic. reflexivity.
  - rewrite main_unfold, Hi. destruct St as (A & B). rewrite A. cbn [negb]. destruct (a_alternate_screen (o_args o)); [rewrite (B eq_refl)|]; cbn [negb andb]; rewrite Ic; reflexivity.
Qed.
Print Assumptions C107_newer.

(** A session in an 80-column window: it is resized to 4 columns; something is pasted; SQLite refuses the history.  With four
    columns on the alternate screen it goes on. *)
Lemma made_empty : made_file empty_db.
Proof. exists fresh. split; [exists []; split; [intros ? ? ? ? ? []|reflexivity]|reflexivity]. Qed.
Definition refusing (d : database) : machine := mkMachine RootSet true d [false; true] true true true true term80.
Example C107_example : made_file empty_db /\ real_widths (machine0 empty_db) [EvKey (KChar 55%N) 0; EvResize 4] /\
  standard_error (fun _ => []) (fun _ => []) (main Debug (fun _ => order) plain (machine0 empty_db) [EvKey (KChar 55%N) 0]) = [] /\
  standard_error (fun _ => []) (fun _ => []) (main Debug (fun _ => order) plain (machine0 empty_db) [EvKey (KChar 55%N) 0; EvResize 4]) =
    lit "Error: CalculatorEnvironmentError { message: ""Window too narrow"" }" ++ [c_newline] /\
  out_ending (main Debug (fun _ => order) plain (machine0 empty_db) [EvKey (KChar 55%N) 0; EvResize 5]) = Running /\
  standard_error (fun _ => lit "disk I/O error") (fun _ => []) (main Debug (fun _ => order) plain (refusing (out_file (main Debug (fun _ => order) plain (machine0 empty_db)
    [EvKey (KChar 55%N) 0; EvKey KEnter 0]))) [EvKey KUp 0]) = lit "Error: disk I/O error" ++ [c_newline] /\
  window (machine0 empty_db) [EvResize 9; EvKey KEnter 0] = 80.
Proof.
  split; [exact made_empty|]. split; [split; [intros n; reflexivity|intros w [X|[X|[]]]; [discriminate X|injection X as <-; reflexivity]]|].
  repeat split; vm_compute; reflexivity.
Qed.
(** A file of version 2. *)
Example C107_newer_example : let d := mkDb [(meta_MinimumVersion, 2%Z); (meta_Version, 2%Z)] [] [] [] in
  uses_database plain (machine0 d) /\ terminal_starts plain (machine0 d) /\ zassoc meta_MinimumVersion (d_meta d) = Some 2%Z /\
  out_ending (main Debug (fun _ => order) plain (machine0 d) [EvKey (KChar 55%N) 0]) <> Running.
Proof. repeat split; vm_compute; congruence. Qed.
