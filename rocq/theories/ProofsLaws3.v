(** ProofsLaws3.v -- the laws in lines. *)
From Verif Require Import Base Position Num TokenTypes Errors Token SavedData Variables InputHistory
  SyntaxTree Commands Calculate SpecGrammar SpecEval SpecCalc SpecSession SpecCompose SpecLaws ProofsLaws ProofsLaws2.
From Coq Require Import List.
Local Open Scope nat_scope.
Local Open Scope list_scope.

Lemma law_in_working_line pr ord ord' x line line' se se1 se2 r1 r2 ts ts' h outline ta tb tc a b c va vb vc f g :
  working_session se -> is_expression (a_radix (s_args se)) line ts -> is_expression (a_radix (s_args se)) line' ts' ->
  is_expression (a_radix (s_args se)) ta a -> comes_to pr (s_args se) (after_recording se) a va -> ~ mentions a h ->
  is_expression (a_radix (s_args se)) tb b -> comes_to pr (s_args se) (after_recording se) b vb -> ~ mentions b h ->
  is_expression (a_radix (s_args se)) tc c -> comes_to pr (s_args se) (after_recording se) c vc -> ~ mentions c h ->
  law va vb vc f g -> (has_powers f \/ has_powers g -> digits_kept pr (s_args se) <> None) ->
  line_with h outline (formula_text (three (written a) (written b) (written c)) f) ts ->
  line_with h outline (formula_text (three (written a) (written b) (written c)) g) ts' ->
  calculate pr ord x line se = (se1, r1) -> calculate pr ord' x line' se = (se2, r2) -> same_reply r1 r2.
Proof.
  intros W T T' Ta Ca Ma Tb Cb Mb Tc Cc Mc L Hp L1 L2 C1 C2. destruct (law_identity _ _ _ _ _ L) as (q & Df & Dg).
  assert (E : forall f, formula_text (three (written a) (written b) (written c)) f = formula_text (fun i => written (three a b c i)) f).
  { assert (E0 : forall i, three (written a) (written b) (written c) i = written (three a b c i)) by (intros [|[|i]]; reflexivity).
    intros f0. induction f0; cbn [formula_text]; congruence. }
  rewrite E in L1, L2.
  refine (identity_in_working_line pr ord ord' x line line' se se1 se2 r1 r2 ts ts' h outline (three ta tb tc) (three a b c) (vals va vb vc) f g q W T T' _ Df Dg Hp L1 L2 C1 C2).
  intros [|[|i]]; repeat split; assumption.
Qed.

