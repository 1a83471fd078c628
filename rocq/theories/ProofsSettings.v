(** ProofsSettings.v -- every combination of settings can be reached by commands. *)
From Verif Require Import Base SpecDecimal Position Num TokenTypes Errors Token SavedData Variables InputHistory
  SyntaxTree Commands Calculate SpecLex SpecGrammar SpecEval SpecPrint SpecHistory SpecCalc SpecCommands SpecSession SpecSettings.
From Verif Require Import ProofsCalc ProofsCalc4 ProofsCalc6 ProofsCommands ProofsCommands2 ProofsSession2.
From Coq Require Import String Lia List.
Local Open Scope list_scope.

Lemma proper_turns line name arguments a a' : (forall radix, is_command radix line name arguments) -> setting_effect a name arguments a' (lit "Done") -> turns line a a'.
Proof.
  intros Hc Ef pr ord x se se' r Ex W Ho Ea C. rewrite executor_new_ok in Ex. injection Ex as <-. subst a.
  destruct (working_calculate _ _ _ _ _ _ _ W Ho C) as (W' & Nr).
  destruct (recording_ok se (proj1 (proj2 W))) as (_ & V & _).
  destruct (setting_line _ _ _ _ _ _ _ _ (Hc _) C) as [(_ & _ & [(e & ->)|(p & ->)] & h & Eh & Nf)|[(text & E & -> & S)|(N & _)]].
  - destruct (Nr e eq_refl).
  - destruct (calculate_cases _ _ _ _ _ _ _ C) as [(_ & _ & h' & h2 & db' & o & Eh' & _ & F & D)|(id & _ & _ & Hi)].
    + destruct D as [(e & _ & [=])|(p' & -> & _)]. destruct (recording_no_panic se h' p' W Eh'). rewrite F. reflexivity.
    + rewrite Eh in Hi. destruct Hi as (h' & db' & _ & F). rewrite F in Nf. destruct (Nf id eq_refl).
  - destruct (setting_effect_det _ _ _ _ _ _ _ E Ef) as (-> & ->). split; [reflexivity|]. split; [reflexivity|]. rewrite S. split; [exact V|]. reflexivity.
  - destruct (N _ _ Ef).
Qed.

Fixpoint joined (zs : list N) : str :=
  match zs with [] => [] | [z] => in_decimal (Z.of_N z) | z :: rest => in_decimal (Z.of_N z) ++ lit " " ++ joined rest end.
Definition command (name : str) (arguments : str) : str := lit "/" ++ name ++ lit " " ++ arguments.
Definition small : list N := map N.of_nat (seq 0 256).
Lemma in_small n : (n <= 255)%N -> In n small.
Proof. intros H. apply in_map_iff. exists (N.to_nat n). split; [apply N2Nat.id|]. apply in_seq. lia. Qed.
Definition reads_as (zs : list N) : bool :=
  match tokenize_int_list Debug (joined zs) 10 with
  | Ok l => if list_eq_dec Z.eq_dec (map pd_value l) (map Z.of_N zs) then true else false
  | _ => false
  end.
Lemma reads_integers zs : reads_as zs = true -> integers (joined zs) (map Z.of_N zs).
Proof.
  unfold reads_as. destruct (tokenize_int_list Debug (joined zs) 10) as [l|e|p] eqn:E; try discriminate.
  destruct (list_eq_dec Z.eq_dec (map pd_value l) (map Z.of_N zs)) as [M|]; [|discriminate]. intros _. apply (integers_iff Debug). eauto.
Qed.
Definition commands_as (name arguments : str) : bool :=
  match find_non_ascii (command name arguments) 0, maybe_extract_command (command name arguments) with
  | None, Some (PCommand n a) => if list_eq_dec N.eq_dec (pd_value n) name then if list_eq_dec N.eq_dec (pd_value a) arguments then true else false else false
  | _, _ => false
  end.
Lemma commands_ok name arguments radix : commands_as name arguments = true -> is_command radix (command name arguments) name arguments.
Proof.
  unfold commands_as, is_command, tokenize. destruct (find_non_ascii _ 0); [discriminate|]. destruct (maybe_extract_command _) as [[ts|n a]|]; try discriminate.
  destruct (list_eq_dec N.eq_dec (pd_value n) name) as [En|]; [|discriminate]. destruct (list_eq_dec N.eq_dec (pd_value a) arguments) as [Ea|]; [|discriminate]. eauto.
Qed.
Definition number_names : list str := [lit "radix"; lit "converttoradix"; lit "precision"].
Lemma all_small : forallb (fun n => reads_as [n] && reads_as [0%N; n] && forallb (fun name => commands_as name (joined [n]) && commands_as name (joined [0%N; n])) number_names) small = true.
Proof. vm_compute. reflexivity. Qed.
Lemma small_ok n name : (n <= 255)%N -> In name number_names ->
  integers (joined [n]) [Z.of_N n] /\ integers (joined [0%N; n]) [0%Z; Z.of_N n] /\
  (forall radix, is_command radix (command name (joined [n])) name (joined [n])) /\ (forall radix, is_command radix (command name (joined [0%N; n])) name (joined [0%N; n])).
Proof.
  intros H Hn. pose proof all_small as A. rewrite forallb_forall in A. specialize (A n (in_small n H)). apply andb_prop in A as [A C]. apply andb_prop in A as [A B].
  rewrite forallb_forall in C. specialize (C name Hn). apply andb_prop in C as [C D].
  split; [exact (reads_integers [n] A)|]. split; [exact (reads_integers [0%N; n] B)|]. split; intros radix; apply commands_ok; assumption.
Qed.
Lemma all_bools : forallb (fun name => commands_as name (bool_text true) && commands_as name (bool_text false)) [lit "fractional"; lit "commas"; lit "upper"] = true.
Proof. vm_compute. reflexivity. Qed.
Lemma bool_says b : says_bool (bool_text b) b.
Proof.
  assert (S : forall w, is_lower w -> says w w).
  { intros w H. exists [], w, []. rewrite app_nil_r. split; [reflexivity|]. split; [constructor|]. split; [constructor|].
    induction H; constructor; [constructor; assumption|exact IHForall]. }
  destruct b; left; apply S; repeat constructor; vm_compute; congruence.
Qed.
Lemma bool_ok name b : In name [lit "fractional"; lit "commas"; lit "upper"] -> forall radix, is_command radix (command name (bool_text b)) name (bool_text b).
Proof.
  intros Hn radix. pose proof all_bools as A. rewrite forallb_forall in A. specialize (A name Hn). apply andb_prop in A as [A B]. apply commands_ok. destruct b; assumption.
Qed.
Lemma none_command radix : is_command radix (command (lit "converttoradix") (lit "none")) (lit "converttoradix") (lit "none").
Proof. apply commands_ok. vm_compute. reflexivity. Qed.
Lemma none_says : says (lit "none") (lit "none").
Proof. exists [], (lit "none"), []. split; [reflexivity|]. split; [constructor|]. split; [constructor|]. repeat constructor; vm_compute; congruence. Qed.

(** The lines that make the settings [a]. *)
Definition setting_lines (a : args) : list str :=
  [ command (lit "precision") (joined [0%N; a_extra_precision a]);
    command (lit "precision") (joined [a_precision a]);
    command (lit "radix") (joined [a_radix a]);
    command (lit "converttoradix") (match a_convert_to_radix a with Some c => joined [c] | None => lit "none" end);
    command (lit "fractional") (bool_text (a_fractional a));
    command (lit "commas") (bool_text (a_commas a));
    command (lit "upper") (bool_text (a_upper a)) ].
Lemma every_setting a : valid_settings a -> (a_precision a + a_extra_precision a <= 255)%N ->
  forall a0, a_alternate_screen a0 = a_alternate_screen a -> turned a0 (setting_lines a) a.
Proof.
  intros Ha Hp [r0 s0 c0 p0 e0 f0 m0 u0] Es. destruct a as [r s c p e f m u]. cbn [a_alternate_screen a_precision a_extra_precision a_radix a_convert_to_radix] in *. subst s0.
  unfold setting_lines. cbn [a_alternate_screen a_precision a_extra_precision a_radix a_convert_to_radix a_fractional a_commas a_upper].
  destruct Ha as (R & C & _ & _). cbn [a_radix a_convert_to_radix] in R, C. unfold radix_ok in R.
  destruct (small_ok e (lit "precision") ltac:(lia) ltac:(right; right; left; reflexivity)) as (_ & I1 & _ & K1).
  destruct (small_ok p (lit "precision") ltac:(lia) ltac:(right; right; left; reflexivity)) as (I2 & _ & K2 & _).
  destruct (small_ok r (lit "radix") ltac:(lia) ltac:(left; reflexivity)) as (I3 & _ & K3 & _).
  eapply td_line; [eapply proper_turns; [exact K1|eapply precision_set_both; [left; reflexivity|exact I1|lia|lia|lia]]|]. rewrite N2Z.id.
  eapply td_line; [eapply proper_turns; [exact K2|eapply precision_set; [left; reflexivity|exact I2|lia|lia]]|]. rewrite N2Z.id.
  eapply td_line; [eapply proper_turns; [exact K3|eapply radix_set; [left; reflexivity|exact I3|lia]]|]. rewrite N2Z.id.
  eapply (td_line _ _ (mkArgs r s c p e f0 m0 u0)).
  { destruct c as [c|].
    - specialize (C c eq_refl). unfold radix_ok in C. destruct (small_ok c (lit "converttoradix") ltac:(lia) ltac:(right; left; reflexivity)) as (I4 & _ & K4 & _).
      eapply proper_turns; [exact K4|]. rewrite <- (N2Z.id c) at 2. eapply convert_set; [left; reflexivity|exact I4|lia].
    - eapply proper_turns; [exact none_command|]. eapply convert_clear; [left; reflexivity|exact none_says]. }
  eapply td_line; [eapply proper_turns; [apply bool_ok; left; reflexivity|eapply fractional_set; [left; reflexivity|apply bool_says]]|].
  eapply td_line; [eapply proper_turns; [apply bool_ok; right; left; reflexivity|eapply commas_set; [left; reflexivity|apply bool_says]]|].
  eapply td_line; [eapply proper_turns; [apply bool_ok; right; right; left; reflexivity|eapply upper_set; [left; reflexivity|apply bool_says]]|].
  constructor.
Qed.
Lemma typable_check line : forallb (fun c => N.ltb c 128 && negb (N.eqb c 10)) line = true -> typable line.
Proof.
  intros H. rewrite forallb_forall in H. apply Forall_forall. intros c Hc. specialize (H c Hc). apply andb_prop in H as [H1 H2].
  apply N.ltb_lt in H1. split; [exact H1|]. intros ->. discriminate H2.
Qed.
Lemma small_typable : forallb (fun n => forallb (fun name => forallb (fun line => forallb (fun c => N.ltb c 128 && negb (N.eqb c 10)) line)
  [command name (joined [n]); command name (joined [0%N; n])]) number_names) small = true.
Proof. vm_compute. reflexivity. Qed.
Lemma number_typable n name : (n <= 255)%N -> In name number_names -> typable (command name (joined [n])) /\ typable (command name (joined [0%N; n])).
Proof.
  intros H Hn. pose proof small_typable as A. rewrite forallb_forall in A. specialize (A n (in_small n H)). rewrite forallb_forall in A. specialize (A name Hn).
  cbn [forallb] in A. apply andb_prop in A as [A B]. apply andb_prop in B as [B _]. split; apply typable_check; assumption.
Qed.
Lemma setting_lines_typable a : valid_settings a -> precision_fits a -> Forall typable (setting_lines a).
Proof.
  intros (R & C & P1 & P2) Hp. unfold radix_ok in *. unfold setting_lines.
  constructor; [apply number_typable; [lia|right; right; left; reflexivity]|].
  constructor; [apply number_typable; [lia|right; right; left; reflexivity]|].
  constructor; [apply number_typable; [lia|left; reflexivity]|].
  constructor. { destruct (a_convert_to_radix a) as [c|]; [|apply typable_check; reflexivity]. specialize (C c eq_refl). apply number_typable; [lia|right; left; reflexivity]. }
  constructor; [destruct (a_fractional a); apply typable_check; reflexivity|].
  constructor; [destruct (a_commas a); apply typable_check; reflexivity|].
  constructor; [destruct (a_upper a); apply typable_check; reflexivity|]. constructor.
Qed.
