(** PropertiesReentry.v -- reaching settings, and entering answers again: C97, C98. *)
From Verif Require Import Base SpecDecimal Position Num TokenTypes Errors Token SavedData Variables InputHistory
  SyntaxTree Commands Calculate Editor Sessions SpecLex SpecGrammar SpecEval SpecPrint SpecHistory SpecEditor SpecCalc SpecCommands SpecSession SpecSettings SpecReentry.
From Verif Require Import ProofsNum ProofsEval ProofsCalc ProofsCalc4 ProofsSession2 ProofsPrint3 ProofsPrint4 ProofsSettings ProofsReentry PropertiesEditor PropertiesCalc PropertiesSession PropertiesCompose.
From Coq Require Import String Lia List.
Local Open Scope nat_scope.
Local Open Scope list_scope.

(** ** C97 *)
(** For every combination of settings there are command lines that lead to it from any settings (with the same
    choice of screen, which only the command line can make), each of them answered [Done], and none of them
    touching a variable. *)
Theorem C97_every_setting_can_be_reached : forall a, valid_settings a -> precision_fits a ->
  exists lines, Forall typable lines /\ forall a0, a_alternate_screen a0 = a_alternate_screen a -> turned a0 lines a.
Proof.
  intros a Ha Hp. exists (setting_lines a). split; [apply setting_lines_typable; [exact Ha|exact Hp]|].
  apply every_setting; [exact Ha|]. unfold precision_fits in Hp. lia.
Qed.
Print Assumptions C97_every_setting_can_be_reached.
Example C97_example :
  let a := mkArgs 16 false (Some 2%N) 200 55 true true false in
  valid_settings a /\ precision_fits a /\ s_args (afterwards (setting_lines a) se0) = a /\
  setting_lines a = map lit ["/precision 0 55"; "/precision 200"; "/radix 16"; "/converttoradix 2"; "/fractional true"; "/commas true"; "/upper false"]%string /\
  map (fun k => snd (enter (nth k (setting_lines a) []) (afterwards (firstn k (setting_lines a)) se0))) (seq 0 7) = repeat (Ok (lit "Done")) 7.
Proof.
  cbv zeta. split; [split; [split; discriminate|]; split; [intros r [= <-]; split; discriminate|split; reflexivity]|]. split; [reflexivity|].
  vm_compute. auto.
Qed.

(** ** C98 *)
(** An answer can be entered as the next line, now or later under the same settings (decimal output in the
    radix of the input, without commas): it is answered with the same number.  It is the very same text if the
    first answer was exact; *)
Theorem C98_answer_entered_again : forall pr ord ord2 x line ts se se1 text se2 se3 r2,
  working_session se -> is_expression (a_radix (s_args se)) line ts -> ts <> [] -> calculate pr ord x line se = (se1, Ok text) ->
  decimal_output (s_args se) -> a_commas (s_args se) = false -> output_radix (s_args se) = a_radix (s_args se) ->
  working_session se2 -> s_args se2 = s_args se -> calculate pr ord2 x text se2 = (se3, r2) ->
  exists n v q text2, (derives 5 ts n \/ exists y, assignment ts y n) /\
    meaning (var_result (after_recording se)) (power_with pr (s_args se)) n (Value v) /\
    nearest (a_radix (s_args se)) (a_precision (s_args se)) v q /\
    r2 = Ok text2 /\ shows (a_radix (s_args se)) text q /\ shows (a_radix (s_args se)) text2 q /\
    (representable (a_radix (s_args se)) (a_precision (s_args se)) v -> text2 = text).
Proof.
  intros pr ord ord2 x line ts se se1 text se2 se3 r2 W T Hn C (F & _) Cm Ro W2 Ea C2.
  destruct (working_answer _ _ _ _ _ _ _ _ W T Hn C) as (n & v & D & M & R).
  destruct (typed_back _ _ _ _ _ _ _ _ _ F Cm Ro R W2 Ea C2) as (q & text2 & E & S & S2 & N & _ & X).
  exists n, v, q, text2. auto 8.
Qed.
Print Assumptions C98_answer_entered_again.
(** and from then on it does not change any more. *)
Theorem C98_stable : forall pr ord ord2 ord3 x line ts se se1 text se2 se3 text2 se4 se5 r3,
  working_session se -> is_expression (a_radix (s_args se)) line ts -> ts <> [] -> calculate pr ord x line se = (se1, Ok text) ->
  decimal_output (s_args se) -> a_commas (s_args se) = false -> output_radix (s_args se) = a_radix (s_args se) ->
  working_session se2 -> s_args se2 = s_args se -> calculate pr ord2 x text se2 = (se3, Ok text2) ->
  working_session se4 -> s_args se4 = s_args se -> calculate pr ord3 x text2 se4 = (se5, r3) -> r3 = Ok text2.
Proof.
  intros pr ord ord2 ord3 x line ts se se1 text se2 se3 text2 se4 se5 r3 W T Hn C (F & _) Cm Ro W2 Ea C2 W4 Ea4 C4.
  destruct (working_answer _ _ _ _ _ _ _ _ W T Hn C) as (n & v & D & M & R).
  exact (typed_back_twice _ _ _ _ _ _ _ _ _ _ _ _ _ _ F Cm Ro R W2 Ea C2 eq_refl W4 Ea4 C4).
Qed.
Print Assumptions C98_stable.
(** With fractional output (and radix ten) the answer is always the same text. *)
Theorem C98_fraction_entered_again : forall pr ord ord2 x line ts se se1 text se2 se3 r2,
  working_session se -> is_expression (a_radix (s_args se)) line ts -> ts <> [] -> calculate pr ord x line se = (se1, Ok text) ->
  a_fractional (s_args se) = true -> a_radix (s_args se) = 10%N ->
  working_session se2 -> s_args se2 = s_args se -> calculate pr ord2 x text se2 = (se3, r2) -> r2 = Ok text.
Proof.
  intros pr ord ord2 x line ts se se1 text se2 se3 r2 W T Hn C F Ra W2 Ea C2.
  destruct (working_answer _ _ _ _ _ _ _ _ W T Hn C) as (n & v & D & M & R).
  exact (fraction_typed_back _ _ _ _ _ _ _ _ _ F Ra R W2 Ea C2).
Qed.
Print Assumptions C98_fraction_entered_again.
(** Of two numbers printed under the same settings, the smaller never shows as the larger. *)
Theorem C98_order_is_kept : forall a v w text1 text2 q1 q2, valid_settings a -> a_fractional a = false -> result_text a v text1 -> result_text a w text2 -> (v <= w)%Q ->
  shows (output_radix a) (without_commas text1) q1 -> shows (output_radix a) (without_commas text2) q2 -> (q1 <= q2)%Q.
Proof. exact answers_ordered. Qed.
Print Assumptions C98_order_is_kept.
(** and every printed text shows exactly one number *)
Theorem C98_shows_one_number : forall a v text, valid_settings a -> a_fractional a = false -> result_text a v text ->
  exists q, shows (output_radix a) (without_commas text) q /\ nearest (output_radix a) (a_precision a) v q /\
    forall q', shows (output_radix a) (without_commas text) q' -> (q' == q)%Q.
Proof.
  intros a v text Ha F R. destruct (result_shows a v text Ha F R) as (q & S & N). exists q. split; [exact S|]. split; [exact N|].
  intros q' S'. exact (shows_unique _ _ _ _ (output_radix_ok a Ha) S' S).
Qed.
Print Assumptions C98_shows_one_number.
(** A rounded answer loses its trailing zeros when entered again, nothing else; fractions stay; with commas the answer cannot be entered. *)
Example C98_example :
  let reply lines line := snd (enter (lit line) (afterwards (map lit lines) se0)) in
  reply [] "-2/7000000"%string = Ok (lit "-0.00000") /\ reply [] "-0.00000"%string = Ok (lit "0") /\ reply [] "0"%string = Ok (lit "0") /\
  reply [] "2/3"%string = Ok (lit "0.66667") /\ reply [] "0.66667"%string = Ok (lit "0.66667") /\
  reply ["/fractional true"]%string "-4/6"%string = Ok (lit "-2/3") /\ reply ["/fractional true"]%string "-2/3"%string = Ok (lit "-2/3") /\
  reply ["/radix 16"]%string "ff*ff"%string = Ok (lit "FE01") /\ reply ["/radix 16"]%string "FE01"%string = Ok (lit "FE01") /\
  reply ["/commas true"]%string "1234*1"%string = Ok (lit "1,234") /\ (exists m, reply ["/commas true"]%string "1,234"%string = Err (InputError m)) /\
  working_session (with_line (lit "2/3") se0) /\ decimal_output (s_args se0) /\ output_radix (s_args se0) = a_radix (s_args se0) /\
  result_text a0 (2#3) (lit "0.66667") /\ shows 10 (without_commas (lit "1,234.50")) (2469#2).
Proof.
  cbv zeta. repeat (split; [vm_compute; reflexivity|]). split; [eexists; vm_compute; reflexivity|].
  split; [apply typed_session; vm_compute; reflexivity|]. split; [split; [reflexivity|vm_compute; split; discriminate]|]. split; [reflexivity|]. split.
  - apply (format_shows (E := failure)); [exact a0_ok|reflexivity|vm_compute; reflexivity].
  - exists false, false, [1; 2; 3; 4]%N, [5; 0]%N. split; [|vm_compute; reflexivity]. split; [vm_compute; reflexivity|].
    split; [repeat constructor|]. split; [discriminate|]. intros ds [=].
Qed.
