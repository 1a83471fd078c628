(** PropertiesTogether.v -- C81: several programs open at once on one database file. *)
From Verif Require Import Base Position Num TokenTypes Errors Token SavedData Variables InputHistory
  SyntaxTree Commands Calculate Editor Sessions Main Io Together SpecGrammar SpecEval SpecHistory SpecEditor SpecCalc SpecSession SpecData SpecMain SpecTogether.
From Verif Require Import ProofsDb4 ProofsCalc3 ProofsCalc4 ProofsCalc8 ProofsCalm ProofsSession ProofsSession2 ProofsMain ProofsTogether ProofsTogether2 PropertiesCalc PropertiesEditor PropertiesSession PropertiesMain.
From Coq Require Import String Lia.
Local Open Scope nat_scope.
Local Open Scope list_scope.

(** ** C81 *)
(** Whatever programs are started on the file, and however their events alternate and their database calls fail,
    the file is always one the program can have made. *)
Theorem C81_file_sound : forall pr ord x tm moves d, (forall i n, iterates (ord i n)) -> Forall proper_move moves -> made_file d ->
  made_file (k_file (desk_run pr ord x tm moves (empty_desk d))).
Proof. intros. apply sound_run; [assumption..|]. apply sound_empty. assumption. Qed.
Print Assumptions C81_file_sound.

(** With working databases every waiting program is a working session -- the single-session properties hold of its next
    line, with the file as the others have left it -- and none of its lines is answered with a runtime error. *)
Theorem C81_sessions_work : forall pr ord x tm moves d, (forall i n, iterates (ord i n)) -> Forall proper_move moves -> Forall calm_move moves -> made_file d ->
  let k := desk_run pr ord x tm moves (empty_desk d) in
  forall i u, sits k i u -> working_session (session_of u) /\
    forall input order se' r, iterates order -> calculate pr order x input (session_of u) = (se', r) -> forall e, r <> Err (RuntimeError e).
Proof.
  intros pr ord x tm moves d Ho P C M k i u S.
  assert (W : working_session (session_of u)) by (eapply calm_working; [apply calm_run; [exact Ho|exact P|exact C|apply calm_empty, M]|exact S]).
  split; [exact W|]. intros input order se' r Io Ca. eapply working_calculate; [exact W|exact Io|exact Ca].
Qed.
Print Assumptions C81_sessions_work.

(** If a program ends with an error, it is one of the display or of a paste. *)
Theorem C81_only_display_failures : forall pr ord x tm moves mv d, (forall i n, iterates (ord i n)) ->
  Forall proper_move (moves ++ [mv]) -> Forall calm_move (moves ++ [mv]) -> made_file d ->
  let k := desk_run pr ord x tm moves (empty_desk d) in
  let k' := fst (desk_step pr ord x tm mv k) in
  forall i u e, k_seat k i <> Some (u, FailedWith e) -> k_seat k' i = Some (u, FailedWith e) ->
  exists e', e = Runtime e' /\ (display_failure e' \/ e' = paste_error).
Proof.
  intros pr ord x tm moves mv d Ho P C M. apply Forall_app in P as [P Pm], C as [C Cm]. inversion Pm; subst. inversion Cm; subst.
  apply calm_step; [assumption..|]. apply calm_run; [assumption..|apply calm_empty, M].
Qed.
Print Assumptions C81_only_display_failures.

(** A move adds to the shared history at most one line: the one shown by the program that received Enter. *)
Theorem C81_what_is_submitted : forall pr ord tm moves mv d, (forall i n, iterates (ord i n)) ->
  Forall proper_move (moves ++ [mv]) -> Forall calm_move (moves ++ [mv]) -> made_file d ->
  let k := desk_run pr ord the_executor tm moves (empty_desk d) in
  let k' := fst (desk_step pr ord the_executor tm mv k) in
  program_file (k_file k) ->
  news k mv k' = [] \/
  exists i ev u line, mv = Press i ev /\ (exists mods, ev = EvKey KEnter mods) /\ sits k i u /\ u_db u <> None /\
    shown (u_inputs u) = Ok line /\ news k mv k' = [line].
Proof.
  intros pr ord tm moves mv d Ho P C M. apply Forall_app in P as [P Pm], C as [C Cm]. inversion Pm; subst. inversion Cm; subst.
  intros k k' Pf. apply (news_step pr ord tm mv k Ho); [assumption..| |exact Pf]. apply calm_run; [assumption..|apply calm_empty, M].
Qed.
Print Assumptions C81_what_is_submitted.

(** The shared history grows by exactly the lines submitted, in the order in which they were submitted, whoever submitted
    them; no line of any program is lost or reordered. *)
Theorem C81_one_history : forall pr ord tm before moves d, (forall i n, iterates (ord i n)) ->
  Forall proper_move (before ++ moves) -> Forall calm_move (before ++ moves) -> made_file d ->
  let k := desk_run pr ord the_executor tm before (empty_desk d) in
  let new := all_news pr ord the_executor tm moves k in
  program_file (k_file k) -> (forall line radix, In line new -> ~ is_histcap radix line) -> room_for (k_file k) (List.length new) ->
  texts_of (k_file (desk_run pr ord the_executor tm moves k)) = texts_of (k_file k) ++ new.
Proof.
  intros pr ord tm before moves d Ho P C M k new Pf Nh R. apply Forall_app in P as [P Pm], C as [C Cm].
  assert (Ck : calm_desk k) by (apply calm_run; [assumption..|apply calm_empty, M]).
  destruct (news_run pr ord tm moves Ho k Pm Cm Ck Pf Nh 0) as (_ & T & _); [rewrite Nat.add_0_r; exact R|apply effect_texts, T].
Qed.
Print Assumptions C81_one_history.

(** A variable assigned in one program is there for all: on disk at once, with the value the line's expression had in that
    program; there as long as no program sets or forgets it; and every program that has not yet used the variable sees that value, and
    no other. *)
Theorem C81_assignments_are_shared : forall pr ord tm before moves d i mods u line ts y n se' text u', (forall i n, iterates (ord i n)) ->
  Forall proper_move (before ++ moves) -> Forall calm_move (before ++ moves) -> made_file d ->
  let k := desk_run pr ord the_executor tm before (empty_desk d) in
  sits k i u -> u_db u <> None -> shown (u_inputs u) = Ok line ->
  is_expression (a_radix (u_args u)) line ts -> assignment ts y n ->
  calculate pr (ord i (u_count u)) the_executor line (session_of u) = (se', Ok text) ->
  let k1 := fst (desk_step pr ord the_executor tm (Press i (EvKey KEnter mods)) k) in
  let k2 := desk_run pr ord the_executor tm moves k1 in
  let new := all_news pr ord the_executor tm moves k1 in
  sits k1 i u' ->
  exists v, meaning (var_result (after_recording (session_of u))) (power_with pr (u_args u)) n (Value v) /\
    remembered (ui_env u') y v /\ (forall w, on_disk (k_file k1) y w <-> w = v) /\
    ((forall line radix, In line new -> ~ is_histcap radix line) -> room_for (k_file k1) (List.length new) ->
     (forall line radix, In line new -> ~ writes radix line y) ->
     (forall w, on_disk (k_file k2) y w <-> w = v) /\
     forall j uj, sits k2 j uj -> u_db uj <> None -> not_remembered (ui_env uj) y -> forall w, var_value (ui_env uj) y w <-> w = v).
Proof.
  intros pr ord tm before moves d i mods u line ts y n se' text u' Ho P C M k S Db Hl Ex As Ca k1 k2 new S'.
  apply Forall_app in P as [P Pm], C as [C Cm].
  assert (Ck : calm_desk k) by (apply calm_run; [assumption..|apply calm_empty, M]).
  destruct (assignment_shared pr ord tm k i (EvKey KEnter mods) u line ts y n se' text Ho Ck S Db (ex_intro _ mods eq_refl) Hl Ex As Ca u' S') as (v & Lv & Rv & Dv).
  exists v. split; [exact Lv|]. split; [exact Rv|]. split; [exact Dv|]. intros Nh R Nw.
  assert (Pf : program_file (k_file k)).
  { destruct S as (u0 & E & ->). destruct Ck as ((_ & Sd) & _). destruct (Sd i u0 _ E) as (Pf & _). rewrite with_file_db in Db. destruct (u_db u0) as [sd|]; [exact (Pf sd eq_refl)|destruct Db; reflexivity]. }
  destruct (calm_step pr ord the_executor tm (Press i (EvKey KEnter mods)) k Ho I I Ck) as (Ck1 & _).
  destruct (news_step pr ord tm (Press i (EvKey KEnter mods)) k Ho I I Ck Pf) as (_ & Pf1 & _).
  destruct (news_run pr ord tm moves Ho k1 Pm Cm Ck1 Pf1 Nh 0) as (_ & _ & V); [rewrite Nat.add_0_r; exact R|].
  assert (D2 : forall w, on_disk (k_file k2) y w <-> w = v) by (intros w; rewrite <- Dv; apply V, Nw).
  split; [exact D2|]. intros j uj (u0 & E & ->) Dj (m & Em & Nm) w. rewrite <- D2. unfold var_value. split.
  - intros (m' & Em' & [X|(_ & sd & Es & X)]); [congruence|]. cbn in Es. destruct (u_db u0); [|discriminate Es]. injection Es as <-. exact X.
  - intros X. exists m. split; [exact Em|]. right. split; [exact Nm|]. rewrite with_file_db in Dj. cbn. destruct (u_db u0) as [sd|]; [|destruct Dj; reflexivity].
    eexists. split; [reflexivity|exact X].
Qed.
Print Assumptions C81_assignments_are_shared.

(** A program without database neither changes the file nor sees what is in it. *)
Theorem C81_without_database : forall pr ord x tm moves d k2 i u e ev, (forall i n, iterates (ord i n)) -> Forall proper_move moves -> made_file d ->
  let k := desk_run pr ord x tm moves (empty_desk d) in
  k_seat k i = Some (u, e) -> u_db u = None ->
  k_seat k2 i = Some (u, e) ->
  let k' := fst (desk_step pr ord x tm (Press i ev) k) in let k2' := fst (desk_step pr ord x tm (Press i ev) k2) in
  k_file k' = k_file k /\ k_seat k' i = k_seat k2' i /\ snd (desk_step pr ord x tm (Press i ev) k) = snd (desk_step pr ord x tm (Press i ev) k2).
Proof.
  intros pr ord x tm moves d k2 i u e ev Ho P M k E N E2. cbn [desk_step]. rewrite E, E2. destruct e; try (cbn; rewrite E, E2; auto).
  assert (S : sound_desk k) by (apply sound_run; [assumption..|apply sound_empty, M]). destruct S as (_ & S). destruct (S i u _ E) as (_ & G). specialize (G eq_refl).
  rewrite !(nofile_with u _ N) in *. pose proof (ui_step_none pr (ord i) x (tm i) ev u (Ho i) G N) as Nn.
  destruct (ui_step pr (ord i) x (tm i) ev u) as [[u' out] st]. cbn [fst snd k_file k_seat] in *. unfold file_of. rewrite Nn, !sit_same. auto.
Qed.
Print Assumptions C81_without_database.

(** Three programs on a new file, the third with --no-db.  The first sets $x, the second uses it and sets it again: the first
    keeps the value it remembers; the third knows nothing and adds nothing. *)
Definition from (i : nat) (evs : list event) : list move := map (Press i) evs.
Definition day : list move :=
  [Begin 0 a0 (Some []); Begin 1 a0 (Some []); Begin 2 a0 None] ++
  from 0 (typing_lines [lit "$x = 2"]) ++ from 1 (typing_lines [lit "$x + 1"; lit "$x = 7"]) ++
  from 2 (typing_lines [lit "$x"]) ++ from 0 (typing_lines [lit "$x"; lit "$y = 5"]).
Example C81_example :
  let k := desk_run Debug (fun _ _ => order) the_executor (fun _ => term80) day (empty_desk empty_db) in
  let answer i line := match k_seat k i with
    | Some (u, Running) => Some (render (snd (calculate Debug order the_executor line (session_of (with_file (k_file k) u)))))
    | _ => None end in
  texts_of (k_file k) = [lit "$x = 2"; lit "$x + 1"; lit "$x = 7"; lit "$x"; lit "$y = 5"] /\
  answer 0 (lit "$x") = Some (Ok (lit "2")) /\ answer 1 (lit "$x") = Some (Ok (lit "7")) /\ answer 1 (lit "$y") = Some (Ok (lit "5")) /\
  Forall proper_move day /\ Forall calm_move day /\ made_file empty_db /\
  all_news Debug (fun _ _ => order) the_executor (fun _ => term80) (skipn 3 day) (desk_run Debug (fun _ _ => order) the_executor (fun _ => term80) (firstn 3 day) (empty_desk empty_db)) =
    texts_of (k_file k).
Proof.
  split; [vm_compute; reflexivity|]. split; [vm_compute; reflexivity|]. split; [vm_compute; reflexivity|]. split; [vm_compute; reflexivity|].
  split; [|split; [|split; [exists fresh; split; [exists []; split; [intros ? ? ? ? ? []|reflexivity]|reflexivity]|vm_compute; reflexivity]]].
  - apply Forall_forall. intros mv I. unfold day in I. repeat (apply in_app_or in I as [I|I]);
    [destruct I as [<-|[<-|[<-|[]]]]; exact a0_ok|unfold from in I; apply in_map_iff in I as (ev & <- & _); exact Logic.I..].
  - apply Forall_forall. intros mv I. unfold day in I. repeat (apply in_app_or in I as [I|I]);
    [destruct I as [<-|[<-|[<-|[]]]]; cbn; tauto|unfold from in I; apply in_map_iff in I as (ev & <- & _); exact Logic.I..].
Qed.
