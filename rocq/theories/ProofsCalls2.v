(** ProofsCalls2.v -- the calls of a line within a run of several programs, and their number (C104). *)
From Verif Require Import Base Position Num TokenTypes Errors Token Operations SavedData Variables InputHistory
  SyntaxTree Commands Calculate Editor Sessions Main Io Together Interleave SpecLex SpecGrammar SpecEval SpecHistory SpecSyntax SpecEditor SpecCalc SpecSession SpecCommands SpecData SpecMain SpecTogether SpecInterleave SpecSize SpecCalls.
From Verif Require Import ProofsNum ProofsLex ProofsLex2 ProofsCalc ProofsCalc2 ProofsCalc3 ProofsCalc4 ProofsCommands ProofsData ProofsTogether ProofsInterleave ProofsInterleave2 ProofsInterleave3 ProofsInterleave6 ProofsCalls.
From Coq Require Import String Permutation Lia.
Local Open Scope nat_scope.
Local Open Scope list_scope.

Section Trace.
  Context (pr : profile) (ord : nat -> nat -> list str -> list str) (x : executor) (tm : nat -> terminal).
  Notation rstep := (room_step pr ord x tm).
  Notation rrun := (room_run pr ord x tm).
  Notation calls_in := (calls_of pr ord x tm).

  Lemma goes_on i u c k w : r_seat w i = Some (Working u (Ask c k)) -> u_db u <> None ->
    exists r sd', r_seat (fst (rstep (Goes i) w)) i = Some (fst (go_on pr (tm i) (with_db u (Some sd')) (k r))).
  Proof.
    intros Sk N. cbn [room_step]. rewrite Sk. destruct (u_db u) as [sd|]; [|congruence].
    destruct (perform c _) as [sd' r]. exists r, sd'. destruct (go_on _ _ _ _) as [s out]. cbn [fst r_seat]. apply seated_same.
  Qed.
  Lemma answer_rests u ans i : exists u' e, fst (answer_line pr (tm i) u ans) = Resting u' e.
  Proof. unfold answer_line. destruct ans as [[[a' h'] vars'] r]. destruct (render r); [destruct (start_line _ _ _) as [[u3 out3] st3]|..]; cbn; eauto. Qed.
  Lemma trace_calls i (Q : list call -> line_answer -> Prop) between : forall w u c k l,
    r_seat w i = Some (Working u (Ask c k)) -> u_db u <> None -> wpc Q l (Ask c k) -> throughout pr ord x tm (midline i) between w ->
    exists u' c' k', r_seat (rrun between w) i = Some (Working u' (Ask c' k')) /\ u_db u' <> None /\ wpc Q (l ++ calls_in i between w) (Ask c' k') /\
      List.length (calls_in i between w) = times_going i between.
  Proof.
    induction between as [|tn between IH]; intros w u c k l Sk N Wp Th; cbn [room_run calls_of].
    - exists u, c, k. rewrite app_nil_r. auto.
    - destruct Th as (_ & Th). unfold times_going. cbn [filter].
      assert (D : tn = Goes i \/ tn <> Goes i) by (destruct tn as [| |j]; try (right; discriminate); destruct (Nat.eq_dec j i) as [->|Nj]; [left; reflexivity|right; congruence]).
      destruct D as [->|D].
      + cbn [call_of]. rewrite Nat.eqb_refl, Sk. destruct (goes_on i u c k w Sk N) as (r & sd' & E).
        assert (Mid : midline i (fst (rstep (Goes i) w))) by (destruct between; apply Th).
        specialize (Wp r). destruct (k r) as [ans|c2 k2] eqn:K.
        { exfalso. destruct Mid as (u2 & t2 & Mid). cbn [go_on] in E. destruct (answer_rests (with_db u (Some sd')) ans i) as (u3 & e3 & X). congruence. }
        cbn [go_on fst] in E. destruct (IH _ _ _ _ (l ++ [c]) E ltac:(discriminate) Wp Th) as (u' & c' & k' & A1 & A2 & A3 & A4).
        exists u', c', k'. rewrite <- app_assoc in A3. split; [exact A1|]. split; [exact A2|]. split; [exact A3|]. cbn [app List.length]. rewrite A4. reflexivity.
      + pose proof (working_stays pr ord x tm i u (Ask c k) tn w Sk D) as Sk'.
        assert (E : call_of i tn w = [] /\ match tn with Goes j => Nat.eqb j i | _ => false end = false).
        { destruct tn as [| |j]; [split; reflexivity..|]. cbn [call_of]. destruct (Nat.eqb_spec j i); [subst; congruence|]. split; reflexivity. }
        destruct E as (-> & ->). cbn [app]. exact (IH _ _ _ _ l Sk' N Wp Th).
  Qed.
  (** After Enter the program is at the first call of the line. *)
  Lemma line_starts i mods w u : r_seat w i = Some (Resting u Running) -> midline i (fst (rstep (Receives i (EvKey KEnter mods)) w)) ->
    exists line c k, shown (u_inputs u) = Ok line /\ line_io pr (ord i (u_count u)) x line (u_args u) (u_inputs u) (u_vars u) = Ask c k /\
      r_seat (fst (rstep (Receives i (EvKey KEnter mods)) w)) i = Some (Working (with_file (r_file w) u) (Ask c k)) /\ u_db u <> None.
  Proof.
    intros Sk (u2 & t2 & Mid). pose proof Mid as Mid0. cbn [room_step] in Mid. rewrite Sk in Mid. cbn [enter] in Mid. destruct (u_db u) as [sd|] eqn:Ed.
    2:{ exfalso. destruct (ui_step _ _ _ _ _ _) as [[u3 o3] st3]. cbn [fst r_seat] in Mid. rewrite seated_same in Mid. discriminate Mid. }
    unfold begin_line in Mid. destruct (display _ _ _ _ _) as [[l1 out1]|e1|p1]; [|cbn [fst r_seat] in Mid; rewrite seated_same in Mid; discriminate Mid..].
    destruct (current_line (u_inputs (with_file (r_file w) u))) as [input|e1|p1] eqn:L; [|cbn [fst r_seat] in Mid; rewrite seated_same in Mid; discriminate Mid..].
    exists input. set (t := line_io _ _ _ _ _ _ _) in Mid.
    assert (G : go_on pr (tm i) (with_file (r_file w) u) t = (Working (with_file (r_file w) u) t, [])) by (unfold t, line_io; rewrite L; reflexivity).
    assert (T : exists c k, t = Ask c k) by (unfold t, line_io; rewrite L; cbv zeta; eauto). destruct T as (c & k & T). exists c, k.
    split; [exact L|]. split; [exact T|]. rewrite G in Mid. cbn [fst r_seat] in Mid. rewrite seated_same in Mid. injection Mid as <- <-.
    split; [rewrite <- T; exact Mid0|discriminate].
  Qed.
End Trace.

(** Every computation can be finished. *)
Lemma can_finish {A} (Q : list call -> A -> Prop) t : forall l, wpc Q l t -> exists l' a, Q (l ++ l') a /\ (forall c k, t = Ask c k -> l' <> []).
Proof.
  induction t as [a|c k IH]; intros l H.
  - exists [], a. rewrite app_nil_r. split; [exact H|discriminate].
  - destruct (IH RDone _ (H RDone)) as (l' & a & H' & _). exists (c :: l'), a. rewrite <- app_assoc in H'. split; [exact H'|discriminate].
Qed.

(** ** Counting *)
Lemma dollars_app a b : dollars (a ++ b) = dollars a + dollars b.
Proof. unfold dollars. rewrite filter_app, app_length. reflexivity. Qed.
Lemma dollars_cons c s : dollars s <= dollars (c :: s).
Proof. unfold dollars. cbn [filter]. destruct (N.eqb 36 c); cbn; lia. Qed.
Lemma namings_cons t ts : namings (t :: ts) = (match pd_value t with TVariable _ => 1 | _ => 0 end) + namings ts.
Proof. unfold namings. cbn [filter]. destruct (pd_value t); reflexivity. Qed.
Lemma reading_dollars radix o s ts : reading radix o s ts -> namings ts <= dollars s.
Proof.
  induction 1 as [o|o c s ts B R IH|o c t s ts P R IH|o w t s ts N W En T R IH].
  - apply le_n.
  - pose proof (dollars_cons c s). lia.
  - rewrite namings_cons. cbn [pd_value]. assert (T2 : forall x, t <> TVariable x) by (intros v ->; cbn in P; repeat (destruct P as [P|P]; [discriminate|]); destruct P).
    pose proof (dollars_cons c s). destruct t; try lia. destruct (T2 _ eq_refl).
  - rewrite namings_cons, dollars_app. cbn [pd_value]. destruct T as [name|w t K|w v K NU]; [change (lit "$" ++ name) with (36%N :: name); cbn [dollars filter N.eqb Pos.eqb]; unfold dollars at 1; cbn; lia| |lia].
    cbn in K. repeat (destruct K as [K|K]; [injection K as _ <-; lia|]). destruct K.
Qed.
(** The names in the tokens, with repetitions. *)
Fixpoint names_in (ts : list ptoken) : list str :=
  match ts with [] => [] | t :: rest => match pd_value t with TVariable y => [y] | _ => [] end ++ names_in rest end.
Lemma names_in_length ts : List.length (names_in ts) = namings ts.
Proof. induction ts as [|t ts IH]; [reflexivity|]. rewrite namings_cons. cbn [names_in]. rewrite app_length, IH. destruct (pd_value t); reflexivity. Qed.
Lemma mentions_in ts y : mentions ts y -> In y (names_in ts).
Proof. intros (p & I). induction ts as [|t ts IH]; [destruct I|]. cbn [names_in]. apply in_or_app. destruct I as [->|I]; [left; left; reflexivity|right; auto]. Qed.
Lemma some_short (N : str -> Prop) l names : some_of N l -> (forall y, N y -> In y names) -> List.length l <= List.length names.
Proof. intros (D & I) H. apply NoDup_incl_length; [exact D|]. intros y Iy. auto. Qed.
Lemma expression_short radix line ts N l : (2 <= radix <= 16)%N -> is_expression radix line ts -> some_of N l -> (forall y, N y -> mentions ts y) -> List.length l <= dollars line.
Proof.
  intros Hr T S H. apply tokenize_tokens in T as (_ & _ & R); [|apply radix_ok_spec; lia]. pose proof (reading_dollars _ _ _ _ R). rewrite <- names_in_length in H0.
  pose proof (some_short N l (names_in ts) S ltac:(intros y Ny; apply mentions_in, H, Ny)). lia.
Qed.
Lemma command_dollars radix line name arguments : is_command radix line name arguments -> dollars arguments <= dollars line.
Proof.
  intros (n & a & T & _ & <-). apply tokenize_command in T as (_ & pre & body & -> & _ & H). rewrite !dollars_app.
  destruct H as [(_ & _ & ->)|(nm & c & rest & -> & _ & _ & _ & ->)]; [cbn; lia|]. cbn [pd_value]. rewrite dollars_app. pose proof (dollars_cons c rest). lia.
Qed.
Lemma list_dollars arguments names : variable_list arguments names -> List.length names <= dollars arguments.
Proof.
  intros V. apply variable_list_iff in V as (l & T & ->). apply tokenize_variable_list_spec in T as (_ & _ & R). apply reading_dollars in R. rewrite map_length.
  assert (E : forall l : list (positioned str), namings (map (fun x => mkPositioned (TVariable (pd_value x)) (pd_pos x)) l) = List.length l).
  { clear. intros l. induction l as [|t l IH]; [reflexivity|]. cbn [map]. rewrite namings_cons, IH. reflexivity. }
  rewrite E in R. exact R.
Qed.
Lemma calls_few radix line vars l : (2 <= radix <= 16)%N -> calls_for radix line vars l ->
  List.length l <= 2 + 2 * dollars line /\ (~ command_line line -> List.length l <= 1 + 2 * dollars line).
Proof.
  intros Hr H. assert (Com : forall name arguments, is_command radix line name arguments -> command_line line).
  { intros name arguments (n & a & T & _). apply tokenize_command in T as (_ & pre & body & E & F & _). exists pre, body. auto. }
  destruct H as [|ts id used read T U R|y p q rest id used read v T U R|arguments names id read used C V R U|arguments names purged C V P|arguments c C H]; cbn [List.length]; rewrite ?app_length, ?map_length; cbn [List.length].
  - lia.
  - pose proof (expression_short _ _ _ _ _ Hr T U ltac:(auto)). pose proof (expression_short _ _ _ _ _ Hr T R ltac:(intros y [A _]; exact A)). lia.
  - pose proof (expression_short _ _ _ _ _ Hr T U ltac:(auto)) as A.
    apply tokenize_tokens in T as (_ & _ & Rd); [|apply radix_ok_spec; lia]. apply reading_dollars in Rd. rewrite !namings_cons in Rd. cbn [pd_value] in Rd.
    pose proof (some_short _ _ (names_in rest) R ltac:(intros z [M _]; apply mentions_in, M)) as B. rewrite names_in_length in B. lia.
  - pose proof (command_dollars _ _ _ _ C). pose proof (list_dollars _ _ V). pose proof (some_short _ _ names R ltac:(auto)). pose proof (some_short _ _ names U ltac:(auto)). apply Com in C. split; [lia|contradiction].
  - pose proof (command_dollars _ _ _ _ C). pose proof (list_dollars _ _ V). pose proof (some_short _ _ names P ltac:(auto)). apply Com in C. split; [lia|contradiction].
  - apply Com in C. split; [lia|contradiction].
Qed.

Section Lines.
  Context (pr : profile) (ord : nat -> nat -> list str -> list str) (tm : nat -> terminal).
  Context (Ho : forall i n, iterates (ord i n)).
  Lemma line_makes w i mods between u u' e out line : processes pr ord the_executor tm w i mods between u u' e out -> shown (u_inputs u) = Ok line ->
    calls_for (a_radix (u_args u)) line (u_vars u) (calls_of pr ord the_executor tm i (line_turns i mods between) w).
  Proof.
    intros (Sk & Th & Fin & _) L. cbv zeta in *. set (w1 := fst (room_step pr ord the_executor tm (Receives i (EvKey KEnter mods)) w)) in *.
    assert (Mid : midline i w1) by (destruct between; apply Th). destruct (line_starts pr ord the_executor tm i mods w u Sk Mid) as (line0 & c & k & L0 & T & S1 & N).
    assert (line0 = line) by congruence. subst line0. pose proof (line_calls pr (ord i (u_count u)) (u_args u) (u_inputs u) (u_vars u) line (Ho i _) L []) as W. rewrite T in W.
    assert (Nf : u_db (with_file (r_file w) u) <> None) by (unfold with_file, with_db; destruct (u_db u) eqn:E; cbn; congruence).
    destruct (trace_calls pr ord the_executor tm i _ between w1 _ _ _ [] S1 Nf W Th) as (u2 & c2 & k2 & S2 & N2 & W2 & _).
    unfold line_turns. cbn [calls_of call_of app]. fold w1.
    assert (App : forall a b w0, calls_of pr ord the_executor tm i (a ++ b) w0 = calls_of pr ord the_executor tm i a w0 ++ calls_of pr ord the_executor tm i b (room_run pr ord the_executor tm a w0)).
    { induction a as [|tn a IH]; intros b w0; [reflexivity|]. cbn [app calls_of room_run]. rewrite IH, app_assoc. reflexivity. }
    rewrite App. cbn [calls_of call_of]. rewrite Nat.eqb_refl, S2. cbn [app].
    destruct (goes_on pr ord the_executor tm i u2 c2 k2 _ S2 N2) as (r & sd' & E). rewrite E in Fin. specialize (W2 r). destruct (k2 r) as [ans|c3 k3]; [|discriminate Fin].
    destruct W2 as (l'' & X & Y). cbn [app] in X. subst l''. exact Y.
  Qed.
  Lemma line_finishes w i mods between u line : (2 <= a_radix (u_args u) <= 16)%N ->
    r_seat w i = Some (Resting u Running) -> shown (u_inputs u) = Ok line ->
    throughout pr ord the_executor tm (midline i) between (fst (room_step pr ord the_executor tm (Receives i (EvKey KEnter mods)) w)) ->
    times_going i between <= 1 + 2 * dollars line /\ (~ command_line line -> times_going i between <= 2 * dollars line).
  Proof.
    intros Hr Sk L Th. set (w1 := fst (room_step pr ord the_executor tm (Receives i (EvKey KEnter mods)) w)) in *.
    assert (Mid : midline i w1) by (destruct between; apply Th). destruct (line_starts pr ord the_executor tm i mods w u Sk Mid) as (line0 & c & k & L0 & T & S1 & N).
    assert (line0 = line) by congruence. subst line0. pose proof (line_calls pr (ord i (u_count u)) (u_args u) (u_inputs u) (u_vars u) line (Ho i _) L []) as W. rewrite T in W.
    assert (Nf : u_db (with_file (r_file w) u) <> None) by (unfold with_file, with_db; destruct (u_db u) eqn:E; cbn; congruence).
    destruct (trace_calls pr ord the_executor tm i _ between w1 _ _ _ [] S1 Nf W Th) as (u2 & c2 & k2 & S2 & N2 & W2 & Len).
    destruct (can_finish _ _ _ W2) as (l' & ans & (l'' & X & Y) & Ne). specialize (Ne _ _ eq_refl). cbn [app] in X. subst l''.
    destruct (calls_few _ _ _ _ Hr Y) as (A & B). rewrite app_length, Len in A, B. destruct l' as [|c' l']; [congruence|]. cbn [List.length] in A, B.
    split; [lia|]. intros C. specialize (B C). lia.
  Qed.
End Lines.
