(** PropertiesSize.v -- C103: answers are no longer than what was typed. *)
From Coq Require Import Qabs Qpower String Lqa Lia.
From Verif Require Import Base Position Num TokenTypes Errors SavedData Variables Operations Token SyntaxTree Commands Calculate.
From Verif Require Import SpecLex SpecGrammar SpecEval SpecPrint SpecCalc SpecSession SpecSize.
From Verif Require Import ProofsLex ProofsPrint4 ProofsSession ProofsSession2 ProofsCalc4 ProofsSize.
From Verif Require Import PropertiesLex PropertiesEval PropertiesCalc PropertiesSession PropertiesCompose.
Local Open Scope list_scope.
Local Open Scope nat_scope.

(** C103. In a line without powers and roots nothing grows: the value of the expression, in lowest terms, has above and
    below the bar at most as many digits, in the input radix, as the line has characters, each naming of a
    variable counting [D] more if the variables named have at most [D] digits. *)
Theorem C103_value : forall s pr a input ts n v D, valid_settings a -> is_expression (a_radix a) input ts -> free_of_powers ts ->
  derives 5 ts n \/ (exists y, assignment ts y n) ->
  (forall x p q, In (tk (TVariable x) p) ts -> var_result s x p (Value q) -> digits_at_most (a_radix a) D q) ->
  meaning (var_result s) (power_with pr a) n (Value v) ->
  digits_at_most (a_radix a) (List.length input + D * namings ts) v.
Proof.
  intros s pr a input ts n v D (Ra & _) T Fr Dv Hv M. apply C01_tokenize_iff_reading in T as (_ & _ & R); [|exact Ra].
  assert (R2 : (2 <= a_radix a)%N) by apply Ra.
  destruct (reading_size (a_radix a) R2 D _ _ _ R) as [S F].
  assert (C : calm_tokens (a_radix a) D (var_result s) ts) by (split; [exact F|split; [exact Fr|exact Hv]]).
  destruct Dv as [Dv|(y & p & q & rest & -> & Dv)].
  - apply (fit_more (a_radix a) R2 (size D ts)); [exact S|]. eapply (proj1 (derives_fit (a_radix a) R2 D (var_result s) (power_with pr a))); eauto.
  - apply (fit_more (a_radix a) R2 (size D rest)); [rewrite !size_cons in S; lia|].
    apply calm_cons in C as [_ C]. apply calm_cons in C as [_ C]. eapply (proj1 (derives_fit (a_radix a) R2 D (var_result s) (power_with pr a))); eauto.
Qed.
Print Assumptions C103_value.
(** So the answer cannot be much longer than the line either. *)
Theorem C103_answer : forall pr ord x input se se' text ts D,
  working_session se -> is_expression (a_radix (s_args se)) input ts -> ts <> [] -> free_of_powers ts ->
  (forall y p q, In (tk (TVariable y) p) ts -> var_result (after_recording se) y p (Value q) -> digits_at_most (a_radix (s_args se)) D q) ->
  calculate pr ord x input se = (se', Ok text) ->
  (a_fractional (s_args se) = true -> (a_radix (s_args se) <= 10)%N ->
     List.length text <= 2 * (List.length input + D * namings ts) + 2) /\
  (a_fractional (s_args se) = false -> (a_radix (s_args se) <= output_radix (s_args se))%N ->
     List.length (no_commas text) <= List.length input + D * namings ts + N.to_nat (a_precision (s_args se)) + 3).
Proof.
  intros pr ord x input se se' text ts D W T Ne Fr Hv C.
  destruct (working_answer pr ord x input se se' text ts W T Ne C) as (n & v & Dv & M & Rt). pose proof W as (V & _).
  pose proof (C103_value _ _ _ _ _ _ _ D V T Fr Dv Hv M) as K.
  assert (R2 : (2 <= a_radix (s_args se))%N) by exact (proj1 (proj1 V)).
  assert (L : 1 <= List.length input + D * namings ts).
  { destruct input as [|c input]; [|cbn [List.length]; lia]. vm_compute in T. injection T as <-. destruct (Ne eq_refl). }
  exact (text_length _ _ _ _ _ R2 L K (proj1 (output_radix_ok _ V)) Rt).
Qed.
Print Assumptions C103_answer.
(** Powers are what makes numbers long: here more than 1024 digits for six characters. *)
Theorem C103_powers_grow : exists input text, snd (enter (lit input) se0) = Ok text /\
  String.length input = 6 /\ 1024 < List.length text.
Proof. exists "4^1701"%string. eexists. split; [vm_compute; reflexivity|]. split; [reflexivity|]. apply Nat.ltb_lt. vm_compute. reflexivity. Qed.
Print Assumptions C103_powers_grow.

(** Answers to lines of 20 and 11 characters in decimal and fractional form, and the hypotheses of the theorems for the first line, in
    which a variable of one digit is named. *)
Example C103_example :
  snd (enter (lit "12345*67890-$x/8.5+1") (afterwards [lit "$x=3"; lit "/commas true"] se0)) = Ok (lit "838,102,050.64706") /\
  snd (enter (lit "1/17-1/1000") (afterwards [lit "/fractional true"] se0)) = Ok (lit "983/17000").
Proof. vm_compute. auto. Qed.
Example C103_hypotheses : let line := lit "12345*67890-$x/8.5+1" in let se := with_line line (afterwards [lit "$x=3"] se0) in let ts := tokens_of line in
  working_session se /\ is_expression 10 line ts /\ ts <> [] /\ free_of_powers ts /\ namings ts = 1 /\
  (forall y p q, In (tk (TVariable y) p) ts -> var_result (after_recording se) y p (Value q) -> digits_at_most 10 1 q).
Proof.
  cbv zeta. split.
  { apply working_typed; [|vm_compute; reflexivity]. unfold afterwards, enter. cbn [fold_left].
    destruct (calculate Debug order the_executor (lit "$x=3") (with_line (lit "$x=3") se0)) as [s r] eqn:C. cbn [fst].
    refine (proj1 (working_calculate _ _ _ _ _ _ _ (typed_session (lit "$x=3") _) order_ok C)). vm_compute. reflexivity. }
  split; [vm_compute; reflexivity|]. split; [vm_compute; discriminate|]. split.
  { intros t H. vm_compute in H. repeat destruct H as [<-|H]; try (split; discriminate). destruct H. }
  split; [vm_compute; reflexivity|]. intros y p q I V.
  assert (y = lit "$x") as -> by (vm_compute in I; repeat (destruct I as [I|I]; [try discriminate; injection I as <- _; reflexivity|]); destruct I).
  match type of V with var_result ?s _ _ _ => assert (G : exists m, e_vars s = Some m /\ vs_get m (lit "$x") = Some 3%Q) by (eexists; split; vm_compute; reflexivity) end.
  destruct G as (m & Em & Gm). inversion V; subst.
  - match goal with H : vs_get ?m' _ = Some _ , E : (q == ?w)%Q |- _ => assert (w = 3%Q) as -> by congruence; exists 3%Z, 1%positive; split; [exact E|repeat split] end.
  - exfalso. congruence.
Qed.
