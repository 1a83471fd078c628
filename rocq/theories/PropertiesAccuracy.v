(** PropertiesAccuracy.v -- how far an answer is from what was asked for: C112. *)
From Verif Require Import Base Position Num TokenTypes Errors Token SavedData Variables InputHistory
  SyntaxTree Commands Calculate Editor Sessions SpecLex SpecGrammar SpecEval SpecPrint SpecHistory SpecEditor SpecCalc SpecCommands SpecSession SpecCompose SpecReentry SpecAccuracy.
From Verif Require Import ProofsNum ProofsEval ProofsCalc ProofsCalc4 ProofsSession2 ProofsPrint3 ProofsPrint4 ProofsReentry ProofsAccuracy PropertiesEditor PropertiesCalc PropertiesSession PropertiesCompose.
From Coq Require Import String Lia List Qabs.
From Verif Require Import PropertiesCalc PropertiesSession PropertiesCompose.
Local Open Scope nat_scope.
Local Open Scope list_scope.

(** ** C112 *)
(** The number an answer shows is off the exact value of the line by at most half a unit of its last place; and
    it is the exact value whenever that has no more digits than are shown, and never otherwise. *)
Theorem C112_half_a_unit : forall pr ord x line ts se se1 text,
  working_session se -> is_expression (a_radix (s_args se)) line ts -> ts <> [] -> calculate pr ord x line se = (se1, Ok text) ->
  a_fractional (s_args se) = false ->
  exists v q, line_value pr se ts v /\ shows (output_radix (s_args se)) (without_commas text) q /\
    (Qabs (q - v) <= last_place (output_radix (s_args se)) (a_precision (s_args se)) / 2)%Q /\
    ((q == v)%Q <-> representable (output_radix (s_args se)) (a_precision (s_args se)) v).
Proof.
  intros pr ord x line ts se se1 text W T Hn C F. destruct (working_line_value _ _ _ _ _ _ _ _ W T Hn C) as (v & V & R).
  destruct (result_shows (s_args se) v text (proj1 W) F R) as (q & S & N). exists v, q. split; [exact V|]. split; [exact S|].
  split; [exact (shown_close _ _ _ _ (proj1 W) F R S)|]. split.
  - intros E. destruct N as ((m & M) & _). exists m. rewrite <- E. exact M.
  - intros Rv. exact (nearest_exact _ _ _ _ Rv N).
Qed.
Print Assumptions C112_half_a_unit.
(** Two lines, typed in whatever circumstances under the same settings, that are given the same answer have values
    at most one unit of the last place apart; with fractional output they have the same value. *)
Theorem C112_same_answer : forall pr ord1 ord2 x line1 line2 ts1 ts2 se1 se2 se1' se2' text,
  working_session se1 -> working_session se2 -> s_args se1 = s_args se2 ->
  is_expression (a_radix (s_args se1)) line1 ts1 -> ts1 <> [] -> calculate pr ord1 x line1 se1 = (se1', Ok text) ->
  is_expression (a_radix (s_args se2)) line2 ts2 -> ts2 <> [] -> calculate pr ord2 x line2 se2 = (se2', Ok text) ->
  exists v w, line_value pr se1 ts1 v /\ line_value pr se2 ts2 w /\
    if a_fractional (s_args se1) then (v == w)%Q
    else (Qabs (v - w) <= last_place (output_radix (s_args se1)) (a_precision (s_args se1)))%Q.
Proof.
  intros pr ord1 ord2 x line1 line2 ts1 ts2 se1 se2 se1' se2' text W1 W2 Ea T1 H1 C1 T2 H2 C2.
  destruct (working_line_value _ _ _ _ _ _ _ _ W1 T1 H1 C1) as (v & V & R). destruct (working_line_value _ _ _ _ _ _ _ _ W2 T2 H2 C2) as (w & V2 & R2).
  exists v, w. split; [exact V|]. split; [exact V2|]. rewrite <- Ea in R2. exact (same_text_close _ _ _ _ (proj1 W1) R R2).
Qed.
Print Assumptions C112_same_answer.
(** More digits never make the answer worse: of two answers for the same value, given under settings that
    differ in the precision only, the one with the higher precision is at least as close. *)
Theorem C112_more_digits : forall pr ord1 ord2 x line1 line2 ts1 ts2 se1 se2 se1' se2' text1 text2,
  working_session se1 -> working_session se2 -> a_fractional (s_args se1) = false ->
  (a_precision (s_args se1) <= a_precision (s_args se2))%N -> s_args se2 = with_precision (a_precision (s_args se2)) (s_args se1) ->
  is_expression (a_radix (s_args se1)) line1 ts1 -> ts1 <> [] -> calculate pr ord1 x line1 se1 = (se1', Ok text1) ->
  is_expression (a_radix (s_args se2)) line2 ts2 -> ts2 <> [] -> calculate pr ord2 x line2 se2 = (se2', Ok text2) ->
  exists v w q1 q2, line_value pr se1 ts1 v /\ line_value pr se2 ts2 w /\
    shows (output_radix (s_args se1)) (without_commas text1) q1 /\ shows (output_radix (s_args se2)) (without_commas text2) q2 /\
    ((v == w)%Q -> (Qabs (q2 - v) <= Qabs (q1 - v))%Q).
Proof.
  intros pr ord1 ord2 x line1 line2 ts1 ts2 se1 se2 se1' se2' text1 text2 W1 W2 F Lp Ea T1 H1 C1 T2 H2 C2.
  destruct (working_line_value _ _ _ _ _ _ _ _ W1 T1 H1 C1) as (v & V & R). destruct (working_line_value _ _ _ _ _ _ _ _ W2 T2 H2 C2) as (w & V2 & R2).
  assert (F2 : a_fractional (s_args se2) = false) by (rewrite Ea; exact F).
  destruct (result_shows _ _ _ (proj1 W1) F R) as (q1 & S1 & _). destruct (result_shows _ _ _ (proj1 W2) F2 R2) as (q2 & S2 & _).
  exists v, w, q1, q2. split; [exact V|]. split; [exact V2|]. split; [exact S1|]. split; [exact S2|]. intros E.
  assert (Hp : (a_precision (s_args se2) < 256)%N) by (destruct (proj1 W2) as (_ & _ & Hp & _); exact Hp).
  assert (Eo : output_radix (s_args se2) = output_radix (s_args se1)) by (rewrite Ea; reflexivity). rewrite Eo in S2.
  rewrite Ea in R2. apply (result_text_eq _ w v) in R2; [|symmetry; exact E].
  exact (more_precise (s_args se1) (a_precision (s_args se2)) v text1 text2 q1 q2 (proj1 W1) F Lp Hp R R2 S1 S2).
Qed.
Print Assumptions C112_more_digits.
(** Whatever an expression [line] is answered, [-(line)] is answered with the same text, with the sign added or
    taken away -- rounding included, in every radix and output format; an expression of value zero is answered
    with the very same text. *)
Theorem C112_opposite : forall pr ord ord' x line line' se se1 se2 r1 r2 ts ts' v,
  working_session se -> is_expression (a_radix (s_args se)) line ts -> is_expression (a_radix (s_args se)) line' ts' ->
  written ts' = TBin Subtract :: in_parentheses (written ts) -> comes_to pr (s_args se) (after_recording se) ts v ->
  calculate pr ord x line se = (se1, r1) -> calculate pr ord' x line' se = (se2, r2) ->
  exists text text', r1 = Ok text /\ r2 = Ok text' /\
    ((0 < v)%Q -> text' = lit "-" ++ text) /\ ((v < 0)%Q -> text = lit "-" ++ text') /\ ((v == 0)%Q -> text' = text).
Proof. exact opposite_line. Qed.
Print Assumptions C112_opposite.
(** [2/3] with 5 and with 6 digits, [5/2] and its opposite without digits: rounding is away from zero. *)
Example C112_example :
  let line := lit "2/3" in let se := with_line line se0 in
  working_session se /\ is_expression 10 line (tokens_of line) /\ snd (calculate Debug order the_executor line se) = Ok (lit "0.66667") /\
  shows 10 (without_commas (lit "0.66667")) (66667#100000) /\ (Qabs ((66667#100000) - (2#3)) == 1#300000)%Q /\
  (last_place 10 5 / 2 == 1#200000)%Q /\ ~ representable 10 5 (2#3) /\
  snd (calculate Debug order the_executor (lit "66667/100000") se) = Ok (lit "0.66667") /\
  s_args (afterwards [lit "/precision 6"] se0) = with_precision 6 (s_args se0) /\
  snd (enter line (afterwards [lit "/precision 6"] se0)) = Ok (lit "0.666667") /\
  is_expression 10 (lit "-(2/3)") (tokens_of (lit "-(2/3)")) /\
  written (tokens_of (lit "-(2/3)")) = TBin Subtract :: in_parentheses (written (tokens_of line)) /\
  comes_to Debug a0 (after_recording se) (tokens_of line) (2#3) /\
  snd (calculate Debug order the_executor (lit "-(2/3)") se) = Ok (lit "-0.66667") /\
  snd (enter (lit "5/2") (afterwards [lit "/precision 0"] se0)) = Ok (lit "3") /\
  snd (enter (lit "-(5/2)") (afterwards [lit "/precision 0"] se0)) = Ok (lit "-3") /\
  snd (enter (lit "-(1/3)") (afterwards [lit "/fractional true"] se0)) = Ok (lit "-1/3").
Proof.
  cbv zeta. split; [apply typed_session; vm_compute; reflexivity|]. split; [vm_compute; reflexivity|]. split; [vm_compute; reflexivity|].
  split. { exists false, false, [0]%N, [6; 6; 6; 6; 7]%N. split; [|vm_compute; reflexivity]. split; [vm_compute; reflexivity|].
    split; [repeat constructor|]. split; [discriminate|]. intros ds [= <-]. reflexivity. }
  split; [vm_compute; reflexivity|]. split; [vm_compute; reflexivity|].
  split. { intros (m & M). unfold Qeq in M. cbn in M. lia. }
  split; [vm_compute; reflexivity|]. split; [vm_compute; reflexivity|]. split; [vm_compute; reflexivity|]. split; [vm_compute; reflexivity|].
  split; [vm_compute; reflexivity|]. split; [apply come_to; vm_compute; reflexivity|].
  repeat split; vm_compute; reflexivity.
Qed.
