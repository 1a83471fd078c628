(** ProofsCommands.v -- the settings commands do what SpecCommands says. *)
From Verif Require Import SpecDecimal ProofsShow Base Position Num TokenTypes Errors Token SavedData Variables InputHistory
  SyntaxTree Commands Calculate Sessions SpecLex SpecGrammar SpecEval SpecHistory SpecCalc SpecCommands.
From Verif Require Import ProofsPosition ProofsNum ProofsLex ProofsLex2 ProofsEval ProofsDb ProofsCalc ProofsCalc2 ProofsCalc3 ProofsCalc4 ProofsCalc5 ProofsCalc6.
From Coq Require Import String Lia.
Local Open Scope nat_scope.
Local Open Scope list_scope.

(** ** Argument texts *)
Lemma space_iff c : space c <-> is_whitespace c = true.
Proof.
  unfold space, is_whitespace. rewrite ?orb_true_iff, ?andb_true_iff, ?N.eqb_eq, ?N.leb_le. lia.
Qed.
Lemma space_lower c : space (to_ascii_lowercase c) <-> space c.
Proof.
  unfold to_ascii_lowercase, space. destruct (N.leb 65 c) eqn:A; cbn [andb]; [|tauto]. destruct (N.leb c 90) eqn:B; [|tauto]. apply N.leb_le in A, B. lia.
Qed.
Lemma trim_end_split s : exists post, s = rev (trim_start (rev s)) ++ post /\ Forall space post /\
  (forall c r, rev (trim_start (rev s)) = r ++ [c] -> ~ space c).
Proof.
  destruct (trim_start_split (rev s)) as (pre & E & P & H). exists (rev pre). split; [|split].
  - rewrite <- rev_app_distr, <- E, rev_involutive. reflexivity.
  - apply Forall_rev. exact P.
  - intros c r X. apply (H c (rev r)). rewrite <- (rev_involutive (trim_start (rev s))), X, rev_app_distr. reflexivity.
Qed.
Lemma trim_split s : exists pre post, s = pre ++ trim s ++ post /\ Forall space pre /\ Forall space post.
Proof.
  unfold trim. destruct (trim_start_split s) as (pre & E & P & _). destruct (trim_end_split (trim_start s)) as (post & E2 & P2 & _).
  exists pre, post. split; [|auto]. rewrite <- E2. exact E.
Qed.
Lemma trim_exact pre w post : Forall space pre -> Forall space post -> Forall (fun c => ~ space c) w -> trim (pre ++ w ++ post) = w.
Proof.
  intros P1 P2 W. unfold trim. destruct w as [|c w].
  - cbn [app]. assert (X : trim_start (pre ++ post) = []).
    { assert (Y : Forall space (pre ++ post)) by (apply Forall_app; auto). replace (pre ++ post) with ((pre ++ post) ++ []) by apply app_nil_r.
      apply trim_start_spaces; [exact Y|discriminate]. }
    rewrite X. reflexivity.
  - rewrite (trim_start_spaces pre); [|exact P1|intros x r [= <- _]; exact (Forall_inv W)].
    rewrite rev_app_distr. rewrite (trim_start_spaces (rev post)); [apply rev_involutive|apply Forall_rev; exact P2|].
    intros x r E. assert (In x (c :: w)) by (apply in_rev; rewrite E; left; reflexivity). rewrite Forall_forall in W. auto.
Qed.
Lemma letter_iff c d : (97 <= c <= 122)%N -> (letter c d <-> to_ascii_lowercase d = c).
Proof.
  intros H. unfold to_ascii_lowercase. split.
  - intros L. inversion L; subst.
    + destruct (N.leb 65 d) eqn:A; [|reflexivity]. destruct (N.leb d 90) eqn:B; [|reflexivity]. apply N.leb_le in A, B. lia.
    + destruct (N.leb 65 (c - 32)) eqn:A; [|apply N.leb_gt in A; lia]. destruct (N.leb (c - 32) 90) eqn:B; [|apply N.leb_gt in B; lia]. cbn [andb]. lia.
  - destruct (N.leb 65 d) eqn:A; cbn [andb]; [|intros ->; constructor; exact H]. destruct (N.leb d 90) eqn:B; [|intros ->; constructor; exact H].
    intros E. assert (d = (c - 32)%N) as -> by lia. constructor. exact H.
Qed.
Lemma letters_iff w : is_lower w -> forall v, Forall2 letter w v <-> map to_ascii_lowercase v = w.
Proof.
  induction 1 as [|c w Hc Hw IH]; intros v; split.
  - intros X. inversion X. reflexivity.
  - intros X. destruct v; [constructor|discriminate X].
  - intros X. inversion X as [|? d ? v' L Ls]; subst. cbn [map]. f_equal; [apply letter_iff; assumption|apply IH; assumption].
  - intros X. destruct v as [|d v]; [discriminate X|]. cbn [map] in X. injection X as X1 X2. constructor; [apply letter_iff; assumption|apply IH; assumption].
Qed.
Definition word_of (arguments : str) : str := trim (map to_ascii_lowercase arguments).
Lemma says_iff arguments w : is_lower w -> (says arguments w <-> word_of arguments = w).
Proof.
  intros W. unfold word_of. split.
  - intros (pre & v & post & -> & P1 & P2 & L). apply letters_iff in L; [|exact W]. rewrite !map_app, L. apply trim_exact.
    + apply Forall_map. eapply Forall_impl; [|exact P1]. intros c. apply space_lower.
    + apply Forall_map. eapply Forall_impl; [|exact P2]. intros c. apply space_lower.
    + eapply Forall_impl; [|exact W]. intros c X Y. unfold space in Y. cbv beta in X. lia.
  - intros E. destruct (trim_split (map to_ascii_lowercase arguments)) as (pre & post & S & P1 & P2). rewrite E in S.
    apply map_eq_app in S as (pre0 & r0 & -> & E1 & S). apply map_eq_app in S as (w0 & post0 & -> & E2 & E3).
    exists pre0, w0, post0. split; [reflexivity|]. subst pre post. split; [|split].
    + rewrite Forall_map in P1. eapply Forall_impl; [|exact P1]. intros c. apply space_lower.
    + rewrite Forall_map in P2. eapply Forall_impl; [|exact P2]. intros c. apply space_lower.
    + apply letters_iff; assumption.
Qed.
Lemma no_argument_iff arguments : no_argument arguments <-> word_of arguments = [].
Proof.
  unfold no_argument, word_of. split.
  - intros P. rewrite <- (app_nil_r (map _ _)). apply (trim_exact _ [] []); [|constructor|constructor]. apply Forall_map. eapply Forall_impl; [|exact P]. intros c. apply space_lower.
  - intros E. destruct (trim_split (map to_ascii_lowercase arguments)) as (pre & post & S & P1 & P2). rewrite E in S. cbn [app] in S.
    assert (P : Forall space (map to_ascii_lowercase arguments)) by (rewrite S; apply Forall_app; auto).
    rewrite Forall_map in P. eapply Forall_impl; [|exact P]. intros c. apply space_lower.
Qed.
Lemma integers_iff pr arguments zs : integers arguments zs <-> exists l, tokenize_int_list pr arguments 10 = Ok l /\ zs = map pd_value l.
Proof.
  assert (R : Num.radix_ok 10 = true) by reflexivity.
  destruct (tokenize_int_list_spec pr arguments 10 R) as (S & _).
  unfold integers. split.
  - intros (A & B & ts & l & C & D & ->). exists l. split; [|reflexivity]. apply S. split; [exact A|]. split; [exact B|]. eauto.
  - intros (l & T & ->). apply S in T as (A & B & ts & C & D). split; [exact A|]. split; [exact B|]. eauto.
Qed.
Lemma bool_iff arguments b : says_bool arguments b <->
  word_of arguments = (if b then lit "true" else lit "false") \/ word_of arguments = (if b then lit "t" else lit "f").
Proof.
  assert (L : forall w, forallb (fun c => N.leb 97 c && N.leb c 122) w = true -> is_lower w).
  { intros w H. rewrite forallb_forall in H. apply Forall_forall. intros c Hc. specialize (H c Hc). rewrite andb_true_iff, !N.leb_le in H. exact H. }
  destruct b; cbn [says_bool]; unfold says_bool; rewrite !says_iff by (apply L; reflexivity); tauto.
Qed.

(** ** The effect is a function of the line *)
Lemma name_cases name c : resolve_in name = Some c <-> In name (command_name c :: command_aliases c).
Proof. split; [apply resolve_only|apply resolve_names]. Qed.
Definition sets (c : command) : bool := match c with CFractional | CUpper | CCommas | CRadix | CConvertToRadix | CPrecision => true | _ => false end.

Lemma bool_setting_cases get set arguments a s : let w := word_of (pd_value arguments) in
  (w = [] /\ exec_bool_setting get set arguments a s = cmd_done a s (show_bool (get a))) \/
  (exists b, says_bool (pd_value arguments) b /\ w <> [] /\ exec_bool_setting get set arguments a s = cmd_done (set a b) s (lit "Done")) \/
  (w <> [] /\ (forall b, ~ says_bool (pd_value arguments) b) /\ exists m, exec_bool_setting get set arguments a s = (a, s, Err (InputError m))).
Proof.
  cbv zeta. unfold exec_bool_setting. cbv zeta. fold (word_of (pd_value arguments)). destruct (word_of (pd_value arguments)) as [|c w] eqn:W; [left; auto|right].
  destruct (str_eqb (c :: w) (lit "f") || str_eqb (c :: w) (lit "false")) eqn:F.
  { left. exists false. split; [|split; [discriminate|reflexivity]]. apply bool_iff. rewrite W. apply orb_true_iff in F as [F|F]; apply str_eqb_spec in F; auto. }
  destruct (str_eqb (c :: w) (lit "t") || str_eqb (c :: w) (lit "true")) eqn:T.
  { left. exists true. split; [|split; [discriminate|reflexivity]]. apply bool_iff. rewrite W. apply orb_true_iff in T as [T|T]; apply str_eqb_spec in T; auto. }
  right. split; [discriminate|]. split; [|eexists; reflexivity]. apply orb_false_iff in F as [F1 F2], T as [T1 T2].
  intros b Hb. apply bool_iff in Hb. rewrite W in Hb. destruct b; destruct Hb as [Hb|Hb]; rewrite Hb in *; (rewrite (proj2 (str_eqb_spec _ _) eq_refl) in *); discriminate.
Qed.

(** each settings command in terms of its own part of the specification *)
Inductive effect_of (a : args) (arguments : str) : command -> args -> str -> Prop :=
| eo_bool_get : forall c get, (c = CFractional /\ get = a_fractional a) \/ (c = CUpper /\ get = a_upper a) \/ (c = CCommas /\ get = a_commas a) ->
    word_of arguments = [] -> effect_of a arguments c a (show_bool get)
| eo_bool_set : forall c b a', says_bool arguments b ->
    (c = CFractional /\ a' = set_fractional a b) \/ (c = CUpper /\ a' = set_upper a b) \/ (c = CCommas /\ a' = set_commas a b) ->
    effect_of a arguments c a' (lit "Done")
| eo_radix_get : integers arguments [] -> effect_of a arguments CRadix a (in_decimal (Z.of_N (a_radix a)))
| eo_radix_set : forall z, integers arguments [z] -> (2 <= z <= 16)%Z -> effect_of a arguments CRadix (set_radix a (Z.to_N z)) (lit "Done")
| eo_convert_get : integers arguments [] ->
    effect_of a arguments CConvertToRadix a (match a_convert_to_radix a with Some c => in_decimal (Z.of_N c) | None => lit "None" end)
| eo_convert_clear : says arguments (lit "none") -> effect_of a arguments CConvertToRadix (set_convert a None) (lit "Done")
| eo_convert_set : forall z, integers arguments [z] -> (2 <= z <= 16)%Z -> effect_of a arguments CConvertToRadix (set_convert a (Some (Z.to_N z))) (lit "Done")
| eo_precision_get : integers arguments [] ->
    effect_of a arguments CPrecision a (lit "Precision = " ++ in_decimal (Z.of_N (a_precision a)) ++ [10%N] ++ lit "Extra Precision = " ++ in_decimal (Z.of_N (a_extra_precision a)))
| eo_precision_set : forall z, integers arguments [z] -> (0 <= z)%Z -> (z + Z.of_N (a_extra_precision a) <= 255)%Z ->
    effect_of a arguments CPrecision (set_precision a (Z.to_N z) (a_extra_precision a)) (lit "Done")
| eo_precision_both : forall z y, integers arguments [z; y] -> (0 <= z)%Z -> (0 <= y)%Z -> (z + y <= 255)%Z ->
    effect_of a arguments CPrecision (set_precision a (Z.to_N z) (Z.to_N y)) (lit "Done").
Definition setting_names_of (c : command) (name : str) : Prop := sets c = true /\ In name (command_name c :: command_aliases c).
Lemma effect_split a name arguments a' text :
  setting_effect a name arguments a' text <-> exists c, setting_names_of c name /\ effect_of a arguments c a' text.
Proof.
  unfold setting_names_of. split.
  - intros H. destruct H.
    + exists CFractional. split; [split; [reflexivity|exact H]|]. apply (eo_bool_get _ _ _ (a_fractional a)); [auto|apply no_argument_iff; assumption].
    + exists CFractional. split; [split; [reflexivity|exact H]|]. eapply eo_bool_set; [eassumption|auto].
    + exists CUpper. split; [split; [reflexivity|exact H]|]. apply (eo_bool_get _ _ _ (a_upper a)); [auto|apply no_argument_iff; assumption].
    + exists CUpper. split; [split; [reflexivity|exact H]|]. eapply eo_bool_set; [eassumption|auto].
    + exists CCommas. split; [split; [reflexivity|exact H]|]. apply (eo_bool_get _ _ _ (a_commas a)); [auto|apply no_argument_iff; assumption].
    + exists CCommas. split; [split; [reflexivity|exact H]|]. eapply eo_bool_set; [eassumption|auto].
    + exists CRadix. split; [split; [reflexivity|exact H]|]. apply eo_radix_get. assumption.
    + exists CRadix. split; [split; [reflexivity|exact H]|]. apply (eo_radix_set (mkArgs r s c p e f m u)); assumption.
    + exists CConvertToRadix. split; [split; [reflexivity|exact H]|]. apply eo_convert_get. assumption.
    + exists CConvertToRadix. split; [split; [reflexivity|exact H]|]. apply (eo_convert_clear (mkArgs r s c p e f m u)). assumption.
    + exists CConvertToRadix. split; [split; [reflexivity|exact H]|]. apply (eo_convert_set (mkArgs r s c p e f m u)); assumption.
    + exists CPrecision. split; [split; [reflexivity|exact H]|]. apply eo_precision_get. assumption.
    + exists CPrecision. split; [split; [reflexivity|exact H]|]. apply (eo_precision_set (mkArgs r s c p e f m u)); assumption.
    + exists CPrecision. split; [split; [reflexivity|exact H]|]. apply (eo_precision_both (mkArgs r s c p e f m u)); assumption.
  - intros (c & (_ & N) & H). destruct a as [r s cv p e f m u]. destruct H.
    + apply no_argument_iff in H0. destruct H as [(-> & ->)|[(-> & ->)|(-> & ->)]]; [apply fractional_get|apply upper_get|apply commas_get]; assumption.
    + destruct H0 as [(-> & ->)|[(-> & ->)|(-> & ->)]]; [apply fractional_set|apply upper_set|apply commas_set]; assumption.
    + apply radix_get; assumption.
    + apply radix_set; assumption.
    + apply convert_get; assumption.
    + apply convert_clear; assumption.
    + apply convert_set; assumption.
    + apply precision_get; assumption.
    + apply precision_set; assumption.
    + apply precision_set_both; assumption.
Qed.

Lemma integers_inj pr arguments l zs : tokenize_int_list pr arguments 10 = Ok l -> (integers arguments zs <-> zs = map pd_value l).
Proof. intros T. rewrite (integers_iff pr). split; [intros (l' & T' & ->); congruence|intros ->; eauto]. Qed.
Lemma integers_none pr arguments zs : (forall l, tokenize_int_list pr arguments 10 <> Ok l) -> ~ integers arguments zs.
Proof. intros N H. apply (integers_iff pr) in H as (l & T & _). exact (N l T). Qed.
Definition plain (c : char) : Prop := (c <= 57)%N \/ c = 95%N.
Lemma digit_plain c d : has_digit c d -> (d < 10)%N -> plain c.
Proof.
  intros H Hd. left. assert (K : In (N.to_nat d) (seq 0 10)) by (apply in_seq; lia). cbn in K.
  unfold has_digit in H. repeat (destruct K as [K|K]; [rewrite <- K in H; destruct H as [H|H]; vm_compute in H; injection H as <-; lia|]). destruct K.
Qed.
Lemma digits_plain s ds : digits_of 10 s ds -> Forall plain s.
Proof. induction 1 as [|c d s ds (H & Hd) _ IH]; constructor; [eapply digit_plain; eassumption|exact IH]. Qed.
Lemma underscore_plain w : Forall plain (no_underscores w) -> Forall plain w.
Proof.
  intros H. apply Forall_forall. intros c Hc. destruct (N.eqb c c_underscore) eqn:E.
  - apply N.eqb_eq in E. right. exact E.
  - rewrite Forall_forall in H. apply H. unfold no_underscores. change 95%N with c_underscore. apply filter_In. rewrite E. auto.
Qed.
Lemma numeral_plain w v : numeral 10 w v -> Forall plain w.
Proof.
  intros (_ & [(ds & _ & D & _)|(ip & fp & ids & fds & E & D1 & D2 & _)]); apply underscore_plain; [eapply digits_plain; eassumption|].
  rewrite E. apply Forall_app. split; [eapply digits_plain; eassumption|]. apply Forall_app. split; [|eapply digits_plain; eassumption]. repeat constructor. vm_compute. discriminate.
Qed.
Lemma reading_plain o s ts : reading 10 o s ts -> forall l, int_args ts l -> Forall plain s.
Proof.
  assert (K : forall ts l, int_args ts l -> Forall (fun t => pd_value t = TBin Subtract \/ exists v, pd_value t = TNumber v) ts).
  { induction 1; [constructor|constructor; [|assumption]|constructor; [|constructor; [|assumption]]]; cbn [pd_value]; eauto. }
  intros R l I. apply K in I. clear K l. induction R as [o|o c s ts B R IH|o c t s ts P R IH|o w t s ts N W E T R IH].
  - constructor.
  - constructor; [|auto]. left. apply blank_ws in B. unfold is_ascii_whitespace in B. rewrite ?orb_true_iff, ?N.eqb_eq in B. lia.
  - apply Forall_cons_iff in I as [I1 I2]. cbn [pd_value] in I1. constructor; [|auto]. left.
    cbv in P. repeat (destruct P as [P|P]; [apply pair_equal_spec in P as [P1 P2]; injection P1 as <-; first [lia|exfalso; subst t; destruct I1 as [I1|(v & I1)]; discriminate I1]|]). destruct P.
  - apply Forall_cons_iff in I as [I1 I2]. cbn [pd_value] in I1. apply Forall_app. split; [|auto]. inversion T; subst.
    + destruct I1 as [I1|(v & I1)]; discriminate I1.
    + exfalso. cbv in H. repeat (destruct H as [H|H]; [apply pair_equal_spec in H as [_ <-]; destruct I1 as [I1|(v & I1)]; discriminate I1|]). destruct H.
    + eapply numeral_plain. eassumption.
Qed.
Lemma none_not_integers arguments zs : says arguments (lit "none") -> ~ integers arguments zs.
Proof.
  intros (pre & w & post & -> & P1 & P2 & L) (A & _ & ts & l & R & I & _). apply reading_plain with (l := l) in R; [|exact I].
  apply Forall_app in R as [_ R]. apply Forall_app in R as [R _]. change (lit "none") with [110%N; 111%N; 110%N; 101%N] in L.
  inversion L as [|? d ? w' Ld Lw]; subst. apply Forall_inv in R. inversion Ld; subst; destruct R as [R|R]; vm_compute in R; try discriminate R; auto.
Qed.
Lemma integers_unique arguments zs zs' : integers arguments zs -> integers arguments zs' -> zs = zs'.
Proof. intros H H'. apply (integers_iff Debug) in H as (l & T & ->), H' as (l' & T' & ->). congruence. Qed.
Lemma bool_unique arguments b b' : says_bool arguments b -> says_bool arguments b' -> b = b'.
Proof. intros H H'. apply bool_iff in H, H'. destruct b, b'; try reflexivity; destruct H as [H|H], H' as [H'|H']; rewrite H in H'; vm_compute in H'; discriminate H'. Qed.
Lemma bool_word arguments b : says_bool arguments b -> word_of arguments <> [].
Proof. intros H. apply bool_iff in H. destruct b, H as [-> | ->]; discriminate. Qed.
Lemma effect_of_det a arguments c a1 t1 a2 t2 : effect_of a arguments c a1 t1 -> effect_of a arguments c a2 t2 -> a1 = a2 /\ t1 = t2.
Proof.
  assert (D : forall zs zs', integers arguments zs -> integers arguments zs' -> zs <> zs' -> False) by (intros zs zs' I I'; intros N; apply N; eapply integers_unique; eassumption).
  intros H H'. destruct H; inversion H'; subst; try discriminate;
    repeat match goal with
    | K : _ \/ _ |- _ => destruct K
    | K : _ /\ _ |- _ => destruct K
    end; subst; try discriminate; auto;
    repeat match goal with
    | I : integers arguments ?x, I' : integers arguments ?y |- _ => pose proof (integers_unique _ _ _ I I') as J; clear I'; try discriminate J; try (injection J as ->)
    | I : says arguments (lit "none"), I' : integers arguments _ |- _ => destruct (none_not_integers _ _ I I')
    | I : says_bool arguments _, W : word_of arguments = [] |- _ => destruct (bool_word _ _ I W)
    | I : says_bool arguments ?x, I' : says_bool arguments ?y |- _ => pose proof (bool_unique _ _ _ I I') as ->; clear I'
    end; subst; auto.
Qed.
Lemma names_unique c c' name : setting_names_of c name -> setting_names_of c' name -> c = c'.
Proof. intros (_ & H) (_ & H'). apply name_cases in H, H'. congruence. Qed.
Lemma setting_effect_det a name arguments a1 t1 a2 t2 :
  setting_effect a name arguments a1 t1 -> setting_effect a name arguments a2 t2 -> a1 = a2 /\ t1 = t2.
Proof.
  intros H H'. apply effect_split in H as (c & N & H), H' as (c' & N' & H'). rewrite (names_unique _ _ _ N' N) in H'. eapply effect_of_det; eassumption.
Qed.

(** ** The commands *)
Lemma radix_arg_cases pr arguments :
  (integers (pd_value arguments) [] /\ parse_radix_arg pr arguments = Ok None) \/
  (exists z, integers (pd_value arguments) [z] /\ (2 <= z <= 16)%Z /\ parse_radix_arg pr arguments = Ok (Some (Z.to_N z))) \/
  (~ integers (pd_value arguments) [] /\ (forall z, integers (pd_value arguments) [z] -> ~ (2 <= z <= 16)%Z) /\ exists m, parse_radix_arg pr arguments = Err (InputError m)).
Proof.
  unfold parse_radix_arg. destruct (tokenize_int_list pr (pd_value arguments) 10) as [[|i [|j l]]|e|p] eqn:T.
  - left. split; [|reflexivity]. apply (integers_inj _ _ _ _ T). reflexivity.
  - right. pose proof (fun zs => integers_inj _ _ _ zs T) as J. cbn [map] in J.
    destruct (Z.ltb (pd_value i) 2) eqn:A; [|destruct (Z.ltb 16 (pd_value i)) eqn:B].
    + right. split; [rewrite J; discriminate|]. split; [|eexists; reflexivity]. intros z Hz. apply J in Hz. injection Hz as ->. apply Z.ltb_lt in A. lia.
    + right. split; [rewrite J; discriminate|]. split; [|eexists; reflexivity]. intros z Hz. apply J in Hz. injection Hz as ->. apply Z.ltb_lt in B. lia.
    + left. exists (pd_value i). split; [apply J; reflexivity|]. split; [|reflexivity]. apply Z.ltb_ge in A, B. lia.
  - right; right. pose proof (fun zs => integers_inj _ _ _ zs T) as J. cbn [map] in J. split; [rewrite J; discriminate|]. split; [|eexists; reflexivity].
    intros z Hz. apply J in Hz. discriminate Hz.
  - right; right. assert (N : forall zs, ~ integers (pd_value arguments) zs) by (intros zs; apply (integers_none pr); rewrite T; discriminate).
    split; [apply N|]. split; [|eexists; reflexivity]. intros z Hz. destruct (N _ Hz).
  - exfalso. exact (proj2 (tokenize_int_list_spec pr (pd_value arguments) 10 eq_refl) p T).
Qed.
Lemma u8_cases z : (exists n, u8_try_from z = Some n /\ z = Z.of_N n /\ (n < 256)%N /\ (0 <= z <= 255)%Z) \/ (u8_try_from z = None /\ ~ (0 <= z <= 255)%Z).
Proof.
  unfold u8_try_from. destruct (Z.leb 0 z) eqn:A; cbn [andb]; [|right; split; [reflexivity|apply Z.leb_gt in A; lia]]. destruct (Z.leb z 255) eqn:B; [|right; split; [reflexivity|apply Z.leb_gt in B; lia]].
  left. apply Z.leb_le in A, B. exists (Z.to_N z). split; [reflexivity|]. lia.
Qed.
Lemma setting_run pr ord x c arguments a s a' s' r : sets c = true -> run_command pr ord x c arguments a s = (a', s', r) ->
  (exists text, effect_of a (pd_value arguments) c a' text /\ r = Ok (text, [])) \/
  ((forall a1 t, ~ effect_of a (pd_value arguments) c a1 t) /\ a' = a /\ exists m, r = Err (InputError m)).
Proof.
  assert (BS : forall c get set, (c = CFractional /\ get = a_fractional /\ set = set_fractional) \/ (c = CUpper /\ get = a_upper /\ set = set_upper) \/ (c = CCommas /\ get = a_commas /\ set = set_commas) ->
    exec_bool_setting get set arguments a s = (a', s', r) ->
    (exists text, effect_of a (pd_value arguments) c a' text /\ r = Ok (text, [])) \/ ((forall a1 t, ~ effect_of a (pd_value arguments) c a1 t) /\ a' = a /\ exists m, r = Err (InputError m))).
  { intros c0 get set Hc E. destruct (bool_setting_cases get set arguments a s) as [(W & X)|[(b & Sb & W & X)|(W & Nb & m & X)]]; rewrite X in E; unfold cmd_done in E; cmd_leaf E.
    - left. exists (show_bool (get a)). split; [|reflexivity]. eapply eo_bool_get; [|exact W]. destruct Hc as [(-> & -> & _)|[(-> & -> & _)|(-> & -> & _)]]; auto.
    - left. exists (lit "Done"). split; [|reflexivity]. eapply eo_bool_set; [exact Sb|]. destruct Hc as [(-> & _ & ->)|[(-> & _ & ->)|(-> & _ & ->)]]; auto.
    - right. split; [|eauto]. intros a1 t Ef. destruct Hc as [(-> & _)|[(-> & _)|(-> & _)]]; inversion Ef; subst; try (destruct (W ltac:(assumption))); eapply Nb; eassumption. }
  intros K E. destruct c; try discriminate K; cbn [run_command] in E.
  - eapply BS; [|exact E]; auto.
  - unfold exec_radix, cmd_done in E. destruct (radix_arg_cases pr arguments) as [(I & X)|[(z & I & Hz & X)|(N0 & N1 & m & X)]]; rewrite X in E; cmd_leaf E.
    + left. eexists. split; [apply eo_radix_get; exact I|]. rewrite <- show_N_decimal. reflexivity.
    + left. eexists. split; [apply eo_radix_set; eassumption|reflexivity].
    + right. split; [|eauto]. intros a1 t Ef. inversion Ef; subst; try tauto; try (eapply N1; eassumption);
        match goal with H : _ \/ _ |- _ => destruct H as [(H & _)|[(H & _)|(H & _)]]; discriminate H end.
  - unfold exec_converttoradix, cmd_done in E. assert (IL : is_lower (lit "none")) by (repeat constructor; discriminate). fold (word_of (pd_value arguments)) in E.
    destruct (str_eqb (word_of (pd_value arguments)) (lit "none")) eqn:Hn.
    { apply str_eqb_spec in Hn. cmd_leaf E. left. eexists. split; [apply eo_convert_clear|reflexivity]. apply says_iff; assumption. }
    destruct (radix_arg_cases pr arguments) as [(I & X)|[(z & I & Hz & X)|(N0 & N1 & m & X)]]; rewrite X in E; cmd_leaf E.
    + left. eexists. split; [apply eo_convert_get; exact I|]. destruct (a_convert_to_radix a); [rewrite <- show_N_decimal|]; reflexivity.
    + left. eexists. split; [apply eo_convert_set; eassumption|reflexivity].
    + right. split; [|eauto]. intros a1 t Ef. inversion Ef; subst; try tauto; try (eapply N1; eassumption);
        try (match goal with H : _ \/ _ |- _ => destruct H as [(H & _)|[(H & _)|(H & _)]]; discriminate H end).
      match goal with H : says _ _ |- _ => apply says_iff in H; [|exact IL]; rewrite H, (proj2 (str_eqb_spec _ _) eq_refl) in Hn; discriminate Hn end.
  - eapply BS; [|exact E]; auto.
  - eapply BS; [|exact E]; auto.
  - unfold exec_precision, cmd_done in E. cbv zeta in E.
    assert (NP : forall zs, integers (pd_value arguments) zs -> zs <> [] ->
       (forall z, zs = [z] -> ~ ((0 <= z)%Z /\ (z + Z.of_N (a_extra_precision a) <= 255)%Z)) ->
       (forall z y, zs = [z; y] -> ~ ((0 <= z)%Z /\ (0 <= y)%Z /\ (z + y <= 255)%Z)) -> forall a1 t, ~ effect_of a (pd_value arguments) CPrecision a1 t).
    { intros zs I N0 N1 N2 a1 t Ef. inversion Ef; subst;
        try (match goal with H : _ \/ _ |- _ => destruct H as [(H & _)|[(H & _)|(H & _)]]; discriminate H end).
      - apply N0. eapply integers_unique; eassumption.
      - apply (N1 z); [eapply integers_unique; eassumption|auto].
      - apply (N2 z y); [eapply integers_unique; eassumption|auto]. }
    destruct (tokenize_int_list pr (pd_value arguments) 10) as [[|i [|j [|k l]]]|e|p] eqn:T.
    + cmd_leaf E. left. eexists. split; [apply eo_precision_get; apply (integers_inj _ _ _ _ T); reflexivity|]. rewrite <- !show_N_decimal. reflexivity.
    + pose proof (proj2 (integers_inj _ _ _ _ T) eq_refl) as I. cbn [map] in I. unfold check_precision in E.
      destruct (u8_cases (pd_value i)) as [(n & U & Ez & Hn & Hz)|(U & Nz)]; rewrite U in E; cbn [bind] in E.
      * destruct (N.ltb (n + a_extra_precision a) 256) eqn:L; cmd_leaf E.
        -- left. eexists. split; [|reflexivity]. apply N.ltb_lt in L. replace n with (Z.to_N (pd_value i)) by lia. apply eo_precision_set; [exact I|lia|lia].
        -- right. split; [|split; [reflexivity|eexists; reflexivity]]. apply N.ltb_ge in L. apply (NP _ I); [discriminate| |]; intros z; [intros [= <-]|intros y X; discriminate X]. lia.
      * cmd_leaf E. right. split; [|split; [reflexivity|eexists; reflexivity]]. apply (NP _ I); [discriminate| |]; intros z; [intros [= <-]|intros y X; discriminate X]. lia.
    + pose proof (proj2 (integers_inj _ _ _ _ T) eq_refl) as I. cbn [map] in I. unfold check_precision in E.
      destruct (u8_cases (pd_value i)) as [(n & U & Ez & Hn & Hz)|(U & Nz)]; rewrite U in E; cbn [bind] in E.
      * destruct (u8_cases (pd_value j)) as [(n2 & U2 & Ez2 & Hn2 & Hz2)|(U2 & Nz2)]; rewrite U2 in E; cbn [bind] in E.
        -- destruct (N.ltb (n + n2) 256) eqn:L; cmd_leaf E.
           ++ left. eexists. split; [|reflexivity]. apply N.ltb_lt in L. replace n with (Z.to_N (pd_value i)) by lia. replace n2 with (Z.to_N (pd_value j)) by lia. apply eo_precision_both; [exact I|lia|lia|lia].
           ++ right. split; [|split; [reflexivity|eexists; reflexivity]]. apply N.ltb_ge in L. apply (NP _ I); [discriminate| |]; intros z; [intros X; discriminate X|intros y [= <- <-]]. lia.
        -- cmd_leaf E. right. split; [|split; [reflexivity|eexists; reflexivity]]. apply (NP _ I); [discriminate| |]; intros z; [intros X; discriminate X|intros y [= <- <-]]. lia.
      * cmd_leaf E. right. split; [|split; [reflexivity|eexists; reflexivity]]. apply (NP _ I); [discriminate| |]; intros z; [intros X; discriminate X|intros y [= <- <-]]. lia.
    + pose proof (proj2 (integers_inj _ _ _ _ T) eq_refl) as I. cbn [map] in I.
      cmd_leaf E. right. split; [|split; [reflexivity|eexists; reflexivity]]. apply (NP _ I); [discriminate| |]; intros z; [intros X; discriminate X|intros y X; discriminate X].
    + cmd_leaf E. right. split; [|split; [reflexivity|eexists; reflexivity]]. intros a1 t Ef.
      assert (N : forall zs, ~ integers (pd_value arguments) zs) by (intros zs; apply (integers_none pr); rewrite T; discriminate).
      inversion Ef; subst; try (eapply N; eassumption); match goal with H : _ \/ _ |- _ => destruct H as [(H & _)|[(H & _)|(H & _)]]; discriminate H end.
    + exfalso. exact (proj2 (tokenize_int_list_spec pr (pd_value arguments) 10 eq_refl) p T).
Qed.
