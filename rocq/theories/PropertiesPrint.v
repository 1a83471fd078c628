(** PropertiesPrint.v -- the output properties C26-C32. *)
From Verif Require Import Base Position Num TokenTypes Errors SavedData Variables InputHistory Operations Token SyntaxTree Commands Calculate.
From Verif Require Import SpecLex SpecGrammar SpecPrint ProofsLex ProofsText ProofsNum ProofsPrint ProofsShow ProofsPrint2 ProofsPrint3 ProofsPrint4.
From Coq Require Import String Qabs Lqa.
Local Open Scope nat_scope.
Local Open Scope list_scope.

Definition out (radix precision : N) (commas upper : bool) : args :=
  mkArgs radix false None precision 0 false commas upper.
Lemma format_decimal {E} a v : decimal_output a ->
  format_result (E := E) a v = make_decimal_string v (output_radix a) (a_precision a) (a_commas a) (a_upper a).
Proof. intros [H _]. unfold format_result. rewrite H. reflexivity. Qed.

(** C26. What a line prints is the rendering of the value of its expression; *)
Theorem C26_line_output : forall pr ord x input se se' text ts,
  tokenize input (a_radix (s_args se)) = Ok (PTokens ts) -> ts <> [] ->
  calculate pr ord x input se = (se', Ok text) ->
  exists t id s1 v, syntax_tree_new ts = Ok t /\
    tree_execute pr (s_args se) t id s1 = (s_env se', Ok v) /\
    format_result (E := failure) (s_args se) v = Ok text.
Proof.
  intros pr ord x input se se' text ts Ht Hne Hc.
  assert (B : forall id a s a' s' text, a = s_args se -> calculate_body pr ord x input id a s = (a', s', Ok text) ->
    exists t s1 v, syntax_tree_new ts = Ok t /\ tree_execute pr a t id s1 = (s', Ok v) /\ format_result (E := failure) a v = Ok text).
  { intros id a s a' s' tx -> . unfold calculate_body. rewrite Ht.
    destruct (touch_all _ _ _) as [s1 [u|e|p]]; [|intros H; apply pair_equal_spec in H as [_ H]; discriminate H..].
    destruct ts as [|t0 ts']; [congruence|].
    destruct (syntax_tree_new (t0 :: ts')) as [t|e|p] eqn:Es; [|intros H; apply pair_equal_spec in H as [_ H]; discriminate H..].
    destruct (tree_execute pr (s_args se) t id s1) as [s2 r] eqn:Ee. intros H. apply pair_equal_spec in H as [H1 H2].
    apply pair_equal_spec in H1 as [_ <-]. destruct r as [v|e|p]; try discriminate H2.
    exists t, s1, v. split; [reflexivity|]. split; [exact Ee|exact H2]. }
  unfold calculate in Hc. destruct (s_inputs se) as [inputs|].
  - destruct (input_finished inputs (e_db (s_env se))) as [[i' db'] [id|e|p]]; [|apply pair_equal_spec in Hc as [_ Hc]; discriminate Hc..].
    destruct (calculate_body pr ord x input id (s_args se) _) as [[a' s'] r] eqn:Eb.
    apply pair_equal_spec in Hc as [<- ->]. destruct (B _ _ _ _ _ _ eq_refl Eb) as (t & s1 & v & H). exists t, id, s1, v. exact H.
  - destruct (calculate_body pr ord x input None (s_args se) _) as [[a' s'] r] eqn:Eb.
    apply pair_equal_spec in Hc as [<- ->]. destruct (B _ _ _ _ _ _ eq_refl Eb) as (t & s1 & v & H). exists t, None, s1, v. exact H.
Qed.
Print Assumptions C26_line_output.
(** and a representable value is printed exactly, with no trailing fractional zero. *)
Theorem C26_exact_output : forall E a v, decimal_output a -> a_commas a = false ->
  representable (output_radix a) (a_precision a) v ->
  exists text neg ids fds, format_result (E := E) a v = Ok text /\
    decimal_text (output_radix a) (a_upper a) neg ids fds text /\
    (text_value (output_radix a) neg ids fds == v)%Q /\
    List.length fds <= N.to_nat (a_precision a) /\
    forall fds' d, fds = fds' ++ [d] -> d <> 0%N.
Proof.
  intros E a v Ha Hc Hp. pose proof Ha as [_ Hr].
  destruct (make_decimal_spec (E := E) v (output_radix a) (a_precision a) (a_upper a) Hr) as (ids & fds & neg & s & _ & Hs & Hd & _ & Hl & Hrep & _).
  exists s, neg, ids, fds. rewrite format_decimal, Hc by exact Ha. destruct (Hrep Hp). auto.
Qed.
Print Assumptions C26_exact_output.
Example C26_example :
  format_result (E := failure) (out 16 5 false true) (- 2748 - (1 # 16)) = Ok (lit "-ABC.1") /\
  representable 16 5 (- 2748 - (1 # 16)) /\ decimal_output (out 16 5 false true).
Proof. split; [vm_compute; reflexivity|]. split; [exists (-2881552384)%Z; vm_compute; reflexivity|]. split; [reflexivity|split; discriminate]. Qed.

(** C27. Any other value is shown with exactly [precision] digits, as the nearest representable
    number (ties away from zero). *)
Theorem C27_rounded_output : forall E a v, decimal_output a -> a_commas a = false ->
  ~ representable (output_radix a) (a_precision a) v ->
  exists text neg ids fds, format_result (E := E) a v = Ok text /\
    decimal_text (output_radix a) (a_upper a) neg ids fds text /\
    List.length fds = N.to_nat (a_precision a) /\
    nearest (output_radix a) (a_precision a) v (text_value (output_radix a) neg ids fds).
Proof.
  intros E a v Ha Hc Hp. pose proof Ha as [_ Hr].
  destruct (make_decimal_spec (E := E) v (output_radix a) (a_precision a) (a_upper a) Hr) as (ids & fds & neg & s & _ & Hs & Hd & _ & Hl & _ & Hrep & Hn).
  exists s, neg, ids, fds. rewrite format_decimal, Hc by exact Ha. auto.
Qed.
Print Assumptions C27_rounded_output.
Example C27_example :
  format_result (E := failure) (out 10 2 false false) (- 199 # 200) = Ok (lit "-1.00") /\
  ~ representable 10 2 (- 199 # 200) /\
  format_result (E := failure) (out 10 0 false false) (5 # 2) = Ok (lit "3").
Proof. split; [vm_compute; reflexivity|]. split; [|vm_compute; reflexivity]. intros [m H]. change (inject_Z (Z.of_N 10 ^ Z.of_N 2)) with (100 # 1)%Q in H. unfold Qeq in H. simpl in H. lia. Qed.

(** C28. The text printed for a representable value, typed back under the same radix, evaluates to
    that value, in any state. *)
Theorem C28_reads_back : forall E a v, decimal_output a -> a_commas a = false -> canon v ->
  output_radix a = a_radix a -> representable (output_radix a) (a_precision a) v ->
  exists text ts t, format_result (E := E) a v = Ok text /\
    tokenize text (a_radix a) = Ok (PTokens ts) /\ syntax_tree_new ts = Ok t /\
    forall pr id s, tree_execute pr a t id s = (s, Ok v).
Proof.
  intros E a v Ha Hc Cv Hr Hp. destruct (C26_exact_output E a v Ha Hc Hp) as (text & neg & ids & fds & Hf & Hd & Hv & _).
  destruct Ha as [_ Ha]. destruct (read_back _ _ _ _ _ _ _ Ha Hd Hv Cv) as (ts & t & H1 & H2 & H3).
  rewrite Hr in H1. exists text, ts, t. auto.
Qed.
Print Assumptions C28_reads_back.
Example C28_example : exists ts t, tokenize (lit "-ABC.1") 16 = Ok (PTokens ts) /\ syntax_tree_new ts = Ok t /\
  tree_execute Debug (out 16 5 false true) t None (mkEnv None None) = (mkEnv None None, Ok (-43969 # 16)).
Proof. eexists _, _. split; [vm_compute; reflexivity|]. split; vm_compute; reflexivity. Qed.

(** C29. Commas: the integer digits are grouped by three, and nothing else changes. *)
Theorem C29_commas : forall E a v, decimal_output a ->
  exists sign digits groups rest,
    format_result (E := E) (with_commas false a) v = Ok (sign ++ digits ++ rest) /\
    format_result (E := E) (with_commas true a) v = Ok (sign ++ join_commas groups ++ rest) /\
    (sign = [] \/ sign = lit "-") /\ (rest = [] \/ exists r, rest = lit "." ++ r) /\
    grouped digits groups /\
    Forall (fun c => exists d, has_digit c d) digits /\
    filter (fun c => negb (N.eqb c c_comma)) (sign ++ join_commas groups ++ rest) = sign ++ digits ++ rest.
Proof.
  intros E a v Ha. pose proof Ha as [Hf Hr].
  destruct (make_decimal_spec (E := E) v (output_radix a) (a_precision a) (a_upper a) Hr) as (ids & fds & neg & s & Hs & _ & Hd & _).
  destruct Hd as (_ & Hd & Hne & _). pose proof (forall_16 _ _ (proj2 Hr) Hd) as H16. apply Forall_app in H16 as [Hi Hf16].
  destruct (insert_commas_grouped (spell (a_upper a) ids)) as (gs & G & J).
  { destruct ids; [contradiction|discriminate]. }
  exists (if neg then lit "-" else []), (spell (a_upper a) ids), gs, (match fds with [] => [] | _ => lit "." ++ spell (a_upper a) fds end).
  assert (Ha' : forall c, decimal_output (with_commas c a)) by (intros c; exact Ha).
  split; [rewrite format_decimal by apply Ha'; exact (Hs false)|].
  split; [rewrite format_decimal by apply Ha'; rewrite <- J; exact (Hs true)|].
  split; [destruct neg; auto|]. split; [destruct fds; eauto|]. split; [exact G|].
  split; [apply spell_forall; [exact Hi|]; intros d Hd'; exists d; apply (spell_char _ d Hd')|].
  assert (NC : forall w, Forall (fun c => c <> c_comma) w -> filter (fun c => negb (N.eqb c c_comma)) w = w).
  { intros w. induction 1 as [|c w Hc _ IH]; [reflexivity|]. cbn [filter]. destruct (N.eqb_spec c c_comma); [contradiction|]. cbn [negb]. rewrite IH. reflexivity. }
  rewrite !filter_app, filter_join by reflexivity. rewrite (grouped_concat _ _ G). rewrite !NC; [reflexivity| | |].
  - destruct fds as [|d fds]; [constructor|]. apply Forall_app. split; [repeat constructor; discriminate|].
    apply spell_forall; [exact Hf16|]. intros d' Hd'. apply (spell_char _ d' Hd').
  - apply spell_forall; [exact Hi|]. intros d' Hd'. apply (spell_char _ d' Hd').
  - destruct neg; repeat constructor; discriminate.
Qed.
Print Assumptions C29_commas.
Example C29_example :
  format_result (E := failure) (out 10 2 true false) (- 12345678901 # 8) = Ok (lit "-1,543,209,862.63").
Proof. vm_compute. reflexivity. Qed.

(** C30. Digits of the output radix in the requested case, and a sign exactly for negative
    results (a negative result that rounds to zero keeps its sign, as in "-0.00"). *)
Theorem C30_digits_and_sign : forall E a v, decimal_output a ->
  exists text neg ids fds, format_result (E := E) a v = Ok text /\
    decimal_text (output_radix a) (a_upper a) neg ids fds (filter (fun c => negb (N.eqb c c_comma)) text) /\
    (neg = true <-> (v < 0)%Q) /\ (a_commas a = false -> ~ In c_comma text).
Proof.
  intros E a v Ha. pose proof Ha as [_ Hr].
  destruct (make_decimal_spec (E := E) v (output_radix a) (a_precision a) (a_upper a) Hr) as (ids & fds & neg & s & Hs & Hs0 & Hd & Hneg & _).
  destruct (C29_commas E a v Ha) as (sign & digits & groups & rest & F1 & F2 & H1 & H2 & G & Hdg & Hfl).
  rewrite format_decimal in F1, F2 by exact Ha. cbn in F1, F2.
  change (output_radix (with_commas false a)) with (output_radix a) in F1. change (output_radix (with_commas true a)) with (output_radix a) in F2.
  rewrite Hs0 in F1. injection F1 as F1.
  assert (NC : ~ In c_comma s).
  { rewrite F1, <- Hfl. rewrite filter_In. intros [_ C]. discriminate C. }
  assert (FS : filter (fun c => negb (N.eqb c c_comma)) s = s).
  { clear - NC. induction s as [|c s IH]; [reflexivity|]. cbn [filter]. destruct (N.eqb_spec c c_comma) as [->|]; [destruct NC; left; reflexivity|].
    cbn [negb]. rewrite IH; [reflexivity|]. intros C. apply NC. right. exact C. }
  rewrite format_decimal by exact Ha. destruct (a_commas a) eqn:Ec.
  - exists (sign ++ join_commas groups ++ rest), neg, ids, fds. split; [exact F2|]. rewrite Hfl, <- F1. split; [exact Hd|]. split; [exact Hneg|discriminate].
  - exists s, neg, ids, fds. split; [exact Hs0|]. rewrite FS. auto.
Qed.
Print Assumptions C30_digits_and_sign.
Example C30_example :
  format_result (E := failure) (out 16 3 false false) (- 255) = Ok (lit "-ff") /\
  format_result (E := failure) (out 10 3 false false) (- 1 # 1000000) = Ok (lit "-0.000").
Proof. split; vm_compute; reflexivity. Qed.

(** C31. No output radix from 2 to 16 crashes (whatever the other settings); *)
Theorem C31_radix_prints_partial : forall E a v, (2 <= output_radix a <= 16)%N ->
  exists text, format_result (E := E) a v = Ok text.
Proof.
  intros E a v Hr. unfold format_result. destruct (a_fractional a); [eauto|].
  destruct (make_decimal_spec (E := E) v (output_radix a) (a_precision a) (a_upper a) Hr) as (ids & fds & neg & s & Hs & _).
  eexists. exact (Hs (a_commas a)).
Qed.
Print Assumptions C31_radix_prints_partial.
(** in particular for every setting [/converttoradix] can make, and for every command line except
    [--convert-to-radix 1], which the argument parser accepts and which crashes on every result. *)
Theorem C31_radix_one_crashes : forall E a v, a_fractional a = false -> a_convert_to_radix a = Some 1%N ->
  format_result (E := E) a v = Panic BadRadix.
Proof.
  intros E a v Hf Hc. unfold format_result. rewrite Hf, Hc. unfold make_decimal_string. cbv zeta.
  destruct (N.eqb (a_precision a) 0); reflexivity.
Qed.
Print Assumptions C31_radix_one_crashes.
Theorem C31_radix_one_refuted : exists a, cli_accepts a = true /\
  forall ord, one_shot Release ord a (lit "1") = Crash BadRadix.
Proof. exists (mkArgs 10 false (Some 1%N) 5 10 false false false). split; [reflexivity|]. intros ord. vm_compute. reflexivity. Qed.
Print Assumptions C31_radix_one_refuted.
Example C31_example : format_result (E := failure) (mkArgs 10 false (Some 2%N) 4 0 false true false) (10 # 3) = Ok (lit "11.0101").
Proof. vm_compute. reflexivity. Qed.

(** C32. Fractional output is the fraction in lowest terms, always in decimal; *)
Theorem C32_fraction_text_partial : forall E a v, a_fractional a = true -> canon v ->
  exists text, format_result (E := E) a v = Ok text /\ fraction_text 10 v text.
Proof. exact (fun E => format_fraction_text (E := E)). Qed.
Print Assumptions C32_fraction_text_partial.
(** in every other output radix the text is not the fraction in that radix. *)
Theorem C32_output_radix_refuted : exists a v text, a_fractional a = true /\ output_radix a = 16%N /\ canon v /\
  format_result (E := failure) a v = Ok text /\ ~ fraction_text (output_radix a) v text.
Proof.
  exists (mkArgs 16 false None 5 5 true false false), (17 # 1), (lit "17"). split; [reflexivity|]. split; [reflexivity|]. split; [reflexivity|].
  split; [vm_compute; reflexivity|]. change (output_radix _) with 16%N. intros (n & d & E & G & H).
  destruct H as [[-> (neg & ids & (Es & Hd & Hne & _) & Hneg & Hz)]|[_ (sn & sd & _ & _ & Es)]].
  - assert (n17 : (n = 17)%Z) by (unfold Qeq in E; simpl in E; lia). rewrite n17 in *.
    destruct neg; [pose proof (proj1 Hneg eq_refl); lia|].
    cbn [app] in Es. rewrite app_nil_r in Es. destruct ids as [|d1 [|d2 [|d3 ids]]]; try discriminate Es.
    assert (E1 : d1 = 1%N /\ d2 = 7%N).
    { rewrite app_nil_r in Hd. inversion Hd as [|? ? H1 Hd']; subst. inversion Hd' as [|? ? H2 _]; subst.
      pose proof (has_digit_val _ _ (proj1 (spell_char false d1 H1))) as [V1 _].
      pose proof (has_digit_val _ _ (proj1 (spell_char false d2 H2))) as [V2 _].
      apply (f_equal (map digit_val)) in Es. cbn [spell map] in Es. rewrite V1, V2 in Es. vm_compute in Es.
      split; congruence. }
    destruct E1 as [-> ->]. discriminate Hz.
  - apply (f_equal (fun s => existsb (N.eqb c_slash) s)) in Es. rewrite existsb_app in Es. cbn in Es. rewrite orb_true_r in Es. discriminate Es.
Qed.
Print Assumptions C32_output_radix_refuted.
Example C32_example : format_result (E := failure) (mkArgs 10 false None 5 5 true false false) (- 17 # 5) = Ok (lit "-17/5").
Proof. vm_compute. reflexivity. Qed.
