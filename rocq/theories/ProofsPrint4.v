(** ProofsPrint4.v -- every result is shown as the settings want it. *)
From Verif Require Import Base Position Num TokenTypes Errors SyntaxTree Calculate SpecLex SpecPrint SpecCalc ProofsNum ProofsText ProofsPrint ProofsShow ProofsPrint2 ProofsPrint3.
From Coq Require Import String Qabs Lia Lqa.
Local Open Scope nat_scope.
Local Open Scope list_scope.

Lemma format_fraction_text {E} a v : a_fractional a = true -> canon v ->
  exists text, format_result (E := E) a v = Ok text /\ fraction_text 10 v text.
Proof.
  intros Hf Cv. unfold format_result. rewrite Hf. eexists. split; [reflexivity|].
  exists (Qnum v), (Qden v). split; [destruct v; reflexivity|]. split; [apply canon_gcd, Cv|].
  unfold show_ratio. destruct (Pos.eqb_spec (Qden v) 1) as [E1|E1].
  - left. split; [exact E1|apply show_Z_text].
  - right. split; [exact E1|]. exists (show_Z (Qnum v)), (show_Z (Zpos (Qden v))). split; [apply show_Z_text|]. split; [apply show_Z_text|]. reflexivity.
Qed.
Lemma output_radix_ok a : valid_settings a -> (2 <= output_radix a <= 16)%N.
Proof.
  intros (A & B & _). unfold output_radix. destruct (a_convert_to_radix a) as [r|] eqn:E; [apply (B r eq_refl)|exact A].
Qed.
Lemma format_text {E} a v : valid_settings a -> canon v -> exists text, format_result (E := E) a v = Ok text /\ result_text a v text.
Proof.
  intros Ha Cv. destruct (a_fractional a) eqn:F.
  - destruct (format_fraction_text (E := E) a v F Cv) as (text & A & B). exists text. split; [exact A|]. left. auto.
  - apply format_decimal_text; [exact F|]. apply output_radix_ok, Ha.
Qed.
Lemma format_shows {E} a v text : valid_settings a -> canon v -> format_result (E := E) a v = Ok text -> result_text a v text.
Proof. intros Ha Cv F. destruct (format_text (E := E) a v Ha Cv) as (t & A & B). congruence. Qed.
Lemma shows_format {E} a v text : valid_settings a -> canon v -> result_text a v text -> format_result (E := E) a v = Ok text.
Proof.
  intros Ha Cv R. destruct (format_text (E := E) a v Ha Cv) as (t & A & B). rewrite A. f_equal. eapply result_text_unique; eauto. apply output_radix_ok, Ha.
Qed.
