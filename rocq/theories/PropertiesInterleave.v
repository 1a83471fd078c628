(** PropertiesInterleave.v -- C88-C91: programs sharing a file, interleaved at every database call. *)
From Verif Require Import Base Position Num TokenTypes Errors Token SavedData Variables InputHistory
  SyntaxTree Commands Calculate Editor Sessions Main Io Together Interleave SpecGrammar SpecEval SpecHistory SpecEditor SpecCalc SpecSession SpecData SpecMain SpecTogether SpecInterleave.
From Verif Require Import ProofsNum ProofsLex ProofsText ProofsDb4 ProofsCalc3 ProofsCalc4 ProofsCalc8 ProofsMain ProofsInterleave ProofsInterleave2 ProofsInterleave3 ProofsInterleave4 ProofsInterleave5 ProofsInterleave6 ProofsInterleave7 ProofsInterleave8 ProofsInterleave9 ProofsInterleave10 PropertiesCalc PropertiesEditor PropertiesSession PropertiesMain.
From Coq Require Import String Lia.
Local Open Scope nat_scope.
Local Open Scope list_scope.

(** ** C88 *)
(** Whatever programs are started on the file, and however their database calls interleave and fail, the file is at every
    moment one the program can have made. *)
Theorem C88_file_sound : forall pr ord x tm turns d, (forall i n, iterates (ord i n)) -> Forall proper_turn turns -> made_file d ->
  Forall made_file (room_files pr ord x tm turns (empty_room d)).
Proof.
  intros pr ord x tm turns d Ho P M. pose proof (sound_nobody d M) as S. revert S. generalize (empty_room d).
  induction turns as [|tn turns IH]; intros w S; cbn [room_files]; constructor; try exact (proj1 S); [constructor|].
  inversion P; subst. apply IH; [assumption|]. apply sound_turn; assumption.
Qed.
Print Assumptions C88_file_sound.

(** A program nobody interrupts does what it does alone: a start, or an event followed by the calls of the line it submits (if
    any), leads to the same states, the same file and the same output as when an event is handled in one piece. *)
Theorem C88_uninterrupted : forall pr ord x tm mv k, exists n,
  let turns := match mv with Begin i a wanted => [Enters i a wanted] | Press i ev => Receives i ev :: repeat (Goes i) n end in
  same_room (room_run pr ord x tm turns (room_of k)) (room_of (fst (desk_step pr ord x tm mv k))) /\
  room_output pr ord x tm turns (room_of k) = snd (desk_step pr ord x tm mv k).
Proof. intros. exact (desk_move pr ord x tm mv k). Qed.
Print Assumptions C88_uninterrupted.

(** So everything that can happen when whole events alternate can happen here. *)
Theorem C88_covers_events : forall pr ord x tm moves d, exists turns,
  same_room (room_run pr ord x tm turns (empty_room d)) (room_of (desk_run pr ord x tm moves (empty_desk d))).
Proof. intros. apply (desk_runs pr ord x tm moves (empty_desk d)). Qed.
Print Assumptions C88_covers_events.

Definition types (i : nat) (line : str) : list turn := map (Receives i) (typing_lines [line]).
(** Two programs assign the same variable at the same time: the calls of the two lines alternate. *)
Definition race : list turn :=
  [Enters 0 a0 (Some []); Enters 1 a0 (Some [])] ++ types 0 (lit "$x = 5") ++ types 1 (lit "$x = 7") ++
  [Goes 0; Goes 1; Goes 1; Goes 0; Goes 0; Goes 1].
Definition after_turns (turns : list turn) : room := room_run Debug (fun _ _ => order) the_executor (fun _ => term80) turns (empty_room empty_db).
Definition resting (w : room) (i : nat) : bool := match r_seat w i with Some (Resting _ Running) => true | _ => false end.
Definition remembers (w : room) (i : nat) (y : str) : option Q :=
  match r_seat w i with Some (Resting u _) => vs_get (u_vars u) y | _ => None end.
Lemma proper_types i line : Forall proper_turn (types i line).
Proof. apply Forall_forall. intros tn I. apply in_map_iff in I as (ev & <- & _). exact Logic.I. Qed.
Lemma proper_goes l : (forall tn, In tn l -> exists i, tn = Goes i) -> Forall proper_turn l.
Proof. intros H. apply Forall_forall. intros tn I. destruct (H tn I) as (i & ->). exact Logic.I. Qed.
Lemma made_empty : made_file empty_db.
Proof. exists fresh. split; [exists []; split; [intros ? ? ? ? ? []|reflexivity]|reflexivity]. Qed.
Example C88_example : Forall proper_turn race /\ made_file empty_db /\
  texts_of (r_file (after_turns race)) = [lit "$x = 5"; lit "$x = 7"] /\
  resting (after_turns race) 0 = true /\ resting (after_turns race) 1 = true /\
  remembers (after_turns race) 0 (lit "$x") = Some (5 # 1)%Q /\ remembers (after_turns race) 1 (lit "$x") = Some (7 # 1)%Q /\
  resting (after_turns (removelast race)) 1 = false.
Proof.
  split. { unfold race. apply Forall_app. split; [constructor; [exact a0_ok|constructor; [exact a0_ok|constructor]]|]. apply Forall_app. split; [apply proper_types|]. apply Forall_app. split; [apply proper_types|]. repeat constructor. }
  split; [exact made_empty|]. repeat split; vm_compute; reflexivity.
Qed.

(** ** C89 *)
(** However the calls of other programs fall between those of an expression line, the line is answered as if every variable
    had the value the program remembered or, if it remembered none, the value (or absence) it had in the file at some moment
    between Enter and the answer; an assigned variable then has the value of the expression, in memory and in the file.
    The settings stay, and so do the remembered values; what is remembered in addition was in the file at such a moment.
    (A runtime error is the only other possibility: C91.) *)
Theorem C89_answer : forall pr ord x tm before between d i mods u u' e out line ts,
  (forall i n, iterates (ord i n)) -> Forall proper_turn (before ++ between) -> Forall calm_turn (before ++ between) -> made_file d ->
  let w := room_run pr ord x tm before (empty_room d) in
  let meanwhile := room_files pr ord x tm (Receives i (EvKey KEnter mods) :: between) w in
  processes pr ord x tm w i mods between u u' e out -> shown (u_inputs u) = Ok line -> is_expression (a_radix (u_args u)) line ts ->
  exists r, replied u u' e out r /\ u_args u' = u_args u /\ remembered_after meanwhile ts (u_vars u) r (u_vars u') /\
    ((exists re, r = Err (RuntimeError re)) \/
     exists val, seen_at meanwhile (u_vars u) val /\ answers pr (u_args u) val ts r /\
       forall y n text, assignment ts y n -> r = Ok text ->
         exists v, meaning (has_values val) (power_with pr (u_args u)) n (Value v) /\ canon v /\
           vs_get (u_vars u') y = Some v /\ on_disk (r_file (room_run pr ord x tm (line_turns i mods between) w)) y v).
Proof.
  intros pr ord x tm before between d i mods u u' e out line ts Ho P C M w meanwhile. destruct (reached pr ord x tm Ho before between d P C M) as (Cw & Pb & Cb). intros Pr L It.
  exact (line_answers pr ord x tm Ho w i mods between u u' e out line ts Cw Pb Cb Pr L It).
Qed.
Print Assumptions C89_answer.

Definition the_ui (w : room) (i : nat) : ui :=
  match r_seat w i with Some (Resting u _) => u | Some (Working u _) => u | None => fst (fst (interactive_start Debug term80 a0 None)) end.
Definition the_ending (w : room) (i : nat) : ending := match r_seat w i with Some (Resting _ e) => e | _ => Running end.
Definition busy (w : room) (i : nat) : bool := match r_seat w i with Some (Working _ _) => true | _ => false end.
Fixpoint busy_all (i : nat) (turns : list turn) (w : room) : bool :=
  (busy w i && match turns with [] => true | tn :: rest => busy_all i rest (fst (room_step Debug (fun _ _ => order) the_executor (fun _ => term80) tn w)) end)%bool.
Definition last_output (w : room) (i : nat) : list tcmd := snd (room_step Debug (fun _ _ => order) the_executor (fun _ => term80) (Goes i) w).
Definition here pr := processes pr (fun _ _ => order) the_executor (fun _ => term80).
Lemma after_more turns turns' : after_turns (turns ++ turns') = room_run Debug (fun _ _ => order) the_executor (fun _ => term80) turns' (after_turns turns).
Proof. apply rrun_app. Qed.
Lemma busy_midline i w : busy w i = true -> midline i w.
Proof. unfold busy, midline. destruct (r_seat w i) as [[u e|u t]|]; try discriminate; eauto. Qed.
Lemma busy_throughout i turns : forall w, busy_all i turns w = true -> throughout Debug (fun _ _ => order) the_executor (fun _ => term80) (midline i) turns w.
Proof. induction turns as [|tn turns IH]; intros w B; apply andb_prop in B as (B & B2); (split; [apply busy_midline, B|]); [exact Logic.I|exact (IH _ B2)]. Qed.
Lemma busy_end i turns : forall w, busy_all i turns w = true -> midline i (room_run Debug (fun _ _ => order) the_executor (fun _ => term80) turns w).
Proof. induction turns as [|tn turns IH]; intros w B; apply andb_prop in B as (B & B2); [apply busy_midline, B|exact (IH _ B2)]. Qed.
Lemma line_processed before between i mods : resting (after_turns before) i = true -> busy_all i between (after_turns (before ++ [Receives i (EvKey KEnter mods)])) = true ->
  busy (after_turns (before ++ line_turns i mods between)) i = false ->
  here Debug (after_turns before) i mods between (the_ui (after_turns before) i) (the_ui (after_turns (before ++ line_turns i mods between)) i)
    (the_ending (after_turns (before ++ line_turns i mods between)) i) (last_output (after_turns (before ++ removelast (line_turns i mods between))) i).
Proof.
  unfold line_turns. rewrite !after_more. intros R B F. unfold here, processes.
  assert (E1 : r_seat (after_turns before) i = Some (Resting (the_ui (after_turns before) i) Running)).
  { unfold resting in R. unfold the_ui. destruct (r_seat (after_turns before) i) as [[u e|u t]|]; try discriminate R. destruct e; try discriminate R. reflexivity. }
  split; [exact E1|]. cbn [room_run] in *. cbv zeta. set (w1 := fst (room_step Debug (fun _ _ => order) the_executor (fun _ => term80) (Receives i (EvKey KEnter mods)) (after_turns before))) in *.
  split; [|split].
  - exact (busy_throughout i between _ B).
  - assert (M : midline i (room_run Debug (fun _ _ => order) the_executor (fun _ => term80) between w1)).
    { exact (busy_end i between _ B). }
    rewrite rrun_app in F |- *. cbn [room_run] in *. set (w2 := room_run Debug (fun _ _ => order) the_executor (fun _ => term80) between w1) in *. clearbody w2. destruct M as (u & t & Eu).
    assert (N : exists s0, r_seat (fst (room_step Debug (fun _ _ => order) the_executor (fun _ => term80) (Goes i) w2)) i = Some s0).
    { cbn [room_step]. rewrite Eu. destruct t as [ans|c k]; [eauto|]. destruct (u_db u); [|eauto]. destruct (perform _ _) as [sd' r]. destruct (go_on _ _ _ _) as [s0 out0]. cbn [fst r_seat]. unfold seated. rewrite Nat.eqb_refl. eauto. }
    destruct N as (s0 & N). unfold busy in F. unfold the_ui, the_ending. rewrite N in *. destruct s0; [reflexivity|discriminate F].
  - unfold last_output. do 2 f_equal. replace (removelast (Receives i (EvKey KEnter mods) :: between ++ [Goes i])) with (Receives i (EvKey KEnter mods) :: between); [reflexivity|].
    change (Receives i (EvKey KEnter mods) :: between ++ [Goes i]) with ((Receives i (EvKey KEnter mods) :: between) ++ [Goes i]). symmetry. apply removelast_last.
Qed.
Lemma calm_types i line : Forall calm_turn (types i line).
Proof. apply Forall_forall. intros tn I. apply in_map_iff in I as (ev & <- & _). exact Logic.I. Qed.
Lemma in_removelast {A} (l : list A) z : In z (removelast l) -> In z l.
Proof. induction l as [|a l IH]; [intros []|]. cbn. destruct l; [intros []|]. intros [->|H]; [left; reflexivity|right; apply IH, H]. Qed.
(** Turns without starts are proper and calm. *)
Definition no_start (tn : turn) : bool := match tn with Enters _ _ _ => false | _ => true end.
Lemma no_starts l : forallb no_start l = true -> Forall proper_turn l /\ Forall calm_turn l.
Proof. intros H. rewrite forallb_forall in H. split; apply Forall_forall; intros tn I; specialize (H tn I); destruct tn; try discriminate H; exact Logic.I. Qed.
Definition two_start : list turn := [Enters 0 a0 (Some []); Enters 1 a0 (Some [])].
Lemma two_starts l : forallb no_start l = true -> Forall proper_turn (two_start ++ l) /\ Forall calm_turn (two_start ++ l).
Proof.
  intros H. destruct (no_starts l H) as (P & C). split; (apply Forall_app; split; [|assumption]).
  - constructor; [exact a0_ok|constructor; [exact a0_ok|constructor]].
  - constructor; [intros []|constructor; [intros []|constructor]].
Qed.

(** Program 1 sets $x and $y; program 0 computes with them; between its reading of $x and its reading of $y, program 1 sets
    both again. *)
Definition before0 : list turn :=
  two_start ++ types 1 (lit "$x = 1") ++ repeat (Goes 1) 5 ++ types 1 (lit "$y = 2") ++ repeat (Goes 1) 5 ++ removelast (types 0 (lit "10 * $x + $y")).
Definition between0 : list turn := repeat (Goes 0) 4 ++ types 1 (lit "$x = 7") ++ repeat (Goes 1) 5 ++ types 1 (lit "$y = 3") ++ repeat (Goes 1) 5.
Example C89_example : Forall proper_turn (before0 ++ between0) /\ Forall calm_turn (before0 ++ between0) /\ made_file empty_db /\
  here Debug (after_turns before0) 0 0 between0 (the_ui (after_turns before0) 0) (the_ui (after_turns (before0 ++ line_turns 0 0 between0)) 0)
    (the_ending (after_turns (before0 ++ line_turns 0 0 between0)) 0) (last_output (after_turns (before0 ++ removelast (line_turns 0 0 between0))) 0) /\
  shown (u_inputs (the_ui (after_turns before0) 0)) = Ok (lit "10 * $x + $y") /\
  (exists ts, is_expression (a_radix (u_args (the_ui (after_turns before0) 0))) (lit "10 * $x + $y") ts) /\
  firstn 3 (last_output (after_turns (before0 ++ removelast (line_turns 0 0 between0))) 0) = print_output false (lit "13") /\
  remembers (after_turns (before0 ++ line_turns 0 0 between0)) 0 (lit "$x") = Some (1 # 1)%Q.
Proof.
  destruct (two_starts (skipn 2 (before0 ++ between0)) ltac:(vm_compute; reflexivity)) as (P & C).
  split; [exact P|]. split; [exact C|]. split; [exact made_empty|].
  split; [apply line_processed; vm_compute; reflexivity|]. split; [vm_compute; reflexivity|]. split; [unfold is_expression; eexists; vm_compute; reflexivity|].
  split; vm_compute; reflexivity.
Qed.
(** The values need not be those of one moment: here the answer, 13, is not what the line comes to with the file as it was at
    any moment. *)
Theorem C89_not_one_moment :
  exists before between u u' e out rest,
    Forall proper_turn (before ++ between) /\ Forall calm_turn (before ++ between) /\ made_file empty_db /\
    here Debug (after_turns before) 0 0 between u u' e out /\ shown (u_inputs u) = Ok (lit "10 * $x + $y") /\
    vs_get (u_vars u) (lit "$x") = None /\ vs_get (u_vars u) (lit "$y") = None /\ out = print_output false (lit "13") ++ rest /\
    forall f vx vy, In f (room_files Debug (fun _ _ => order) the_executor (fun _ => term80) (line_turns 0 0 between) (after_turns before)) ->
      on_disk f (lit "$x") vx -> on_disk f (lit "$y") vy -> ~ (10 * vx + vy == 13)%Q.
Proof.
  destruct C89_example as (P & C & M & Pr & L & _ & Out & _).
  exists before0, between0. eexists _, _, _, _, (skipn 3 (last_output (after_turns (before0 ++ removelast (line_turns 0 0 between0))) 0)). split; [exact P|]. split; [exact C|]. split; [exact M|]. split; [exact Pr|]. split; [exact L|].
  split; [vm_compute; reflexivity|]. split; [vm_compute; reflexivity|]. split; [rewrite <- Out; symmetry; apply firstn_skipn|].
  intros f vx vy I (r1 & I1 & N1 & _ & E1 & F1) (r2 & I2 & N2 & _ & E2 & F2) Q. apply (in_map d_vars) in I.
  pose (ok := fun r r' : var_row => (negb (str_eqb (v_name r) (lit "$x") && str_eqb (v_name r') (lit "$y")) ||
     str_eqb (v_denom r) (show_Z 1) && str_eqb (v_denom r') (show_Z 1) &&
     (str_eqb (v_numer r) (show_Z 1) && str_eqb (v_numer r') (show_Z 2) || str_eqb (v_numer r) (show_Z 7) && str_eqb (v_numer r') (show_Z 2) || str_eqb (v_numer r) (show_Z 7) && str_eqb (v_numer r') (show_Z 3)))%bool).
  assert (Chk : forallb (fun rows => forallb (fun r => forallb (ok r) rows) rows)
     (map d_vars (room_files Debug (fun _ _ => order) the_executor (fun _ => term80) (line_turns 0 0 between0) (after_turns before0))) = true) by (vm_compute; reflexivity).
  rewrite forallb_forall in Chk. specialize (Chk _ I). rewrite forallb_forall in Chk. specialize (Chk r1 I1). rewrite forallb_forall in Chk. specialize (Chk r2 I2).
  unfold ok in Chk. rewrite N1, N2, E1, F1, E2, F2, <- !ProofsShow.show_Z_decimal, !str_eqb_refl in Chk. clear - Chk Q. cbn [negb andb orb] in Chk.
  apply andb_prop in Chk as (Dn & Nm). apply andb_prop in Dn as (D1 & D2).
  assert (Inj : forall z z', str_eqb (show_Z z) (show_Z z') = true -> z = z').
  { intros z z' E. apply str_eqb_eq in E. pose proof (parse_show_Z (E := unit) z) as A. rewrite E, parse_show_Z in A. congruence. }
  apply Inj in D1, D2. destruct vx as [n1 d1], vy as [n2 d2]. cbn [Qnum Qden] in *. injection D1 as ->. injection D2 as ->. unfold Qeq in Q. cbn in Q.
  apply orb_prop in Nm as [Nm|Nm]; [apply orb_prop in Nm as [Nm|Nm]|]; apply andb_prop in Nm as (A & B); apply Inj in A, B; subst; vm_compute in Q; discriminate Q.
Qed.
Print Assumptions C89_not_one_moment.

(** ** C90 *)
(** Whatever turns follow, the history (once the file exists) is the queue that the recordings and changes of the capacity
    make of it, in the order in which they happened. *)
Theorem C90_history : forall pr ord x tm before turns d h,
  (forall i n, iterates (ord i n)) -> Forall proper_turn (before ++ turns) -> Forall calm_turn (before ++ turns) -> made_file d ->
  let w := room_run pr ord x tm before (empty_room d) in
  has_history (r_file w) h ->
  has_history (r_file (room_run pr ord x tm turns w)) (fold_left then_event (history_events pr ord x tm turns w) h).
Proof.
  intros pr ord x tm before turns d h Ho P C M w Hh. destruct (reached pr ord x tm Ho before turns d P C M) as (Cw & Pb & Cb).
  exact (proj2 (history_run pr ord x tm Ho turns w Pb Cb Cw (made_program _ _ (proj1 (proj1 Cw)) (proj1 Hh))) h Hh).
Qed.
Print Assumptions C90_history.
(** Every line a program processes, expression, command or nonsense, is recorded by it exactly once while it is processed. *)
Theorem C90_recorded_once : forall pr ord x tm before between d i mods u u' e out line,
  (forall i n, iterates (ord i n)) -> Forall proper_turn (before ++ between) -> Forall calm_turn (before ++ between) -> made_file d ->
  let w := room_run pr ord x tm before (empty_room d) in
  processes pr ord x tm w i mods between u u' e out -> shown (u_inputs u) = Ok line ->
  recorded_by i (history_events pr ord x tm (line_turns i mods between) w) = [line].
Proof.
  intros pr ord x tm before between d i mods u u' e out line Ho P C M w. destruct (reached pr ord x tm Ho before between d P C M) as (Cw & Pb & Cb). intros Pr L.
  exact (line_recorded pr ord x tm Ho w i mods between u u' e out line Cw Pb Cb Pr L).
Qed.
Print Assumptions C90_recorded_once.
(** The line of program 0 is recorded in the middle of the line of program 1. *)
Definition between2 : list turn := [Goes 0; Goes 0; Goes 0] ++ types 1 (lit "/histcap 2") ++ repeat (Goes 1) 5 ++ types 1 (lit "7") ++ repeat (Goes 1) 5.
Example C90_example : Forall proper_turn (before0 ++ between2) /\ Forall calm_turn (before0 ++ between2) /\ made_file empty_db /\
  has_history (r_file (after_turns before0)) (100%Z, [lit "$x = 1"; lit "$y = 2"]) /\
  here Debug (after_turns before0) 0 0 between0 (the_ui (after_turns before0) 0) (the_ui (after_turns (before0 ++ line_turns 0 0 between0)) 0)
    (the_ending (after_turns (before0 ++ line_turns 0 0 between0)) 0) (last_output (after_turns (before0 ++ removelast (line_turns 0 0 between0))) 0) /\
  history_events Debug (fun _ _ => order) the_executor (fun _ => term80) between2 (after_turns (before0 ++ [Receives 0 (EvKey KEnter 0)])) =
    [Recorded 0 (lit "10 * $x + $y"); Recorded 1 (lit "/histcap 2"); Resized 2; Recorded 1 (lit "7")] /\
  texts_of (r_file (after_turns (before0 ++ [Receives 0 (EvKey KEnter 0)] ++ between2))) = [lit "/histcap 2"; lit "7"].
Proof.
  destruct (two_starts (skipn 2 (before0 ++ between2)) ltac:(vm_compute; reflexivity)) as (P & C).
  split; [exact P|]. split; [exact C|]. split; [exact made_empty|]. split; [split; vm_compute; reflexivity|]. split; [apply C89_example|]. split; vm_compute; reflexivity.
Qed.

(** ** C91 *)
(** Other programs cannot make a line fail with a runtime error: false.  Program 0 records [$x = 5]; before it gets to store
    the value, program 1 records a line, and the history has room for one. *)
Definition before1 : list turn := two_start ++ types 0 (lit "/histcap 1") ++ repeat (Goes 0) 5 ++ removelast (types 0 (lit "$x = 5")).
Definition between1 : list turn := [Goes 0] ++ types 1 (lit "7") ++ repeat (Goes 1) 5 ++ [Goes 0].
Theorem C91_refuted : exists before between u u' e out,
  Forall proper_turn (before ++ between) /\ Forall calm_turn (before ++ between) /\ made_file empty_db /\
  here Debug (after_turns before) 0 0 between u u' e out /\ shown (u_inputs u) = Ok (lit "$x = 5") /\
  replied u u' e out (Err (RuntimeError SqliteConstraint)) /\
  not_on_disk (r_file (after_turns (before ++ line_turns 0 0 between))) (lit "$x").
Proof.
  destruct (two_starts (skipn 2 (before1 ++ between1)) ltac:(vm_compute; reflexivity)) as (P & C).
  exists before1, between1. eexists _, _, _, _. split; [exact P|]. split; [exact C|]. split; [exact made_empty|].
  split; [apply line_processed; vm_compute; reflexivity|]. split; [vm_compute; reflexivity|]. split.
  - apply replied_of. exists (lit "Runtime Error: sqlite constraint"), (skipn 3 (last_output (after_turns (before1 ++ removelast (line_turns 0 0 between1))) 0)).
    split; [reflexivity|]. split; [|vm_compute; reflexivity].
    assert (F : firstn 3 (last_output (after_turns (before1 ++ removelast (line_turns 0 0 between1))) 0) = print_output false (lit "Runtime Error: sqlite constraint")) by (vm_compute; reflexivity).
    change (a_alternate_screen _) with false. rewrite <- F. symmetry. apply firstn_skipn.
  - assert (E : d_vars (r_file (after_turns (before1 ++ line_turns 0 0 between1))) = []) by (vm_compute; reflexivity). intros r I. rewrite E in I. destruct I.
Qed.
Print Assumptions C91_refuted.
(** It happens only if the record of the line was removed from the history after the program made it and before the line was
    finished, and the error is then the failed foreign key constraint. *)
Theorem C91_only_evicted_partial : forall pr ord x tm before between d i mods u u' e out line,
  (forall i n, iterates (ord i n)) -> Forall proper_turn (before ++ between) -> Forall calm_turn (before ++ between) -> made_file d ->
  let w := room_run pr ord x tm before (empty_room d) in
  processes pr ord x tm w i mods between u u' e out -> shown (u_inputs u) = Ok line ->
  exists r, replied u u' e out r /\ forall re, r = Err (RuntimeError re) -> re = SqliteConstraint /\
    exists first mid rest id, line_turns i mods between = first ++ Goes i :: mid ++ Goes i :: rest /\
      history_event_of (Goes i) (room_run pr ord x tm first w) = [Recorded i line] /\
      (exists old, inputs_of (r_file (room_run pr ord x tm (first ++ [Goes i]) w)) = old ++ [(id, line)]) /\
      ~ In id (ids_of (r_file (room_run pr ord x tm (first ++ Goes i :: mid) w))).
Proof.
  intros pr ord x tm before between d i mods u u' e out line Ho P C M w. destruct (reached pr ord x tm Ho before between d P C M) as (Cw & Pb & Cb). intros Pr L.
  exact (line_evicted pr ord x tm Ho w i mods between u u' e out line Cw Pb Cb Pr L).
Qed.
Print Assumptions C91_only_evicted_partial.
(** So a line is safe when nobody changes the capacity while it is processed and no more lines are recorded meanwhile, itself
    included, than the history has room for. *)
Theorem C91_room_partial : forall pr ord x tm before between d i mods u u' e out line cap,
  (forall i n, iterates (ord i n)) -> Forall proper_turn (before ++ between) -> Forall calm_turn (before ++ between) -> made_file d ->
  let w := room_run pr ord x tm before (empty_room d) in
  processes pr ord x tm w i mods between u u' e out -> shown (u_inputs u) = Ok line -> capacity (r_file w) cap ->
  let happened := history_events pr ord x tm (line_turns i mods between) w in
  never_resized happened -> (Z.of_nat (List.length happened) <= cap)%Z ->
  exists r, replied u u' e out r /\ forall re, r <> Err (RuntimeError re).
Proof.
  intros pr ord x tm before between d i mods u u' e out line cap Ho P C M w. destruct (reached pr ord x tm Ho before between d P C M) as (Cw & Pb & Cb). intros Pr L Cp happened Nr Le.
  exact (line_kept pr ord x tm Ho w i mods between u u' e out line cap Cw Pb Cb Pr L Cp Nr Le).
Qed.
Print Assumptions C91_room_partial.
(** And whatever the others do, a program only ever stops with an error for a display too narrow or a paste. *)
Theorem C91_never_stopped : forall pr ord x tm turns d i u e,
  (forall i n, iterates (ord i n)) -> Forall proper_turn turns -> Forall calm_turn turns -> made_file d ->
  r_seat (room_run pr ord x tm turns (empty_room d)) i = Some (Resting u (FailedWith e)) ->
  exists re, e = Runtime re /\ (display_failure re \/ re = paste_error).
Proof.
  intros pr ord x tm turns d i u e Ho P C M S. exact (all_mild pr ord x tm Ho turns (empty_room d) P C (calm_nobody d M) ltac:(discriminate) i u e S).
Qed.
Print Assumptions C91_never_stopped.
Example C91_example : Forall proper_turn (before0 ++ between0) /\ Forall calm_turn (before0 ++ between0) /\ made_file empty_db /\
  here Debug (after_turns before0) 0 0 between0 (the_ui (after_turns before0) 0) (the_ui (after_turns (before0 ++ line_turns 0 0 between0)) 0)
    (the_ending (after_turns (before0 ++ line_turns 0 0 between0)) 0) (last_output (after_turns (before0 ++ removelast (line_turns 0 0 between0))) 0) /\
  capacity (r_file (after_turns before0)) 100 /\
  history_events Debug (fun _ _ => order) the_executor (fun _ => term80) (line_turns 0 0 between0) (after_turns before0) =
    [Recorded 0 (lit "10 * $x + $y"); Recorded 1 (lit "$x = 7"); Recorded 1 (lit "$y = 3")].
Proof.
  destruct C89_example as (P & C & M & Pr & _). split; [exact P|]. split; [exact C|]. split; [exact M|]. split; [exact Pr|]. split; vm_compute; reflexivity.
Qed.
