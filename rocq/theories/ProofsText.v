(** ProofsText.v -- writing integers in a radix and reading them back. *)
From Verif Require Import Base Position TokenTypes Errors Num SpecLex ProofsLex.
From Coq Require Import String.
Local Open Scope list_scope.

Lemma digit_char_has d : (d < 36)%N -> has_digit (digit_char d) d.
Proof.
  intros H. left. assert (E : In d (map N.of_nat (seq 0 36))).
  { apply in_map_iff. exists (N.to_nat d). split; [lia|]. apply in_seq. lia. }
  simpl in E. repeat (destruct E as [<-|E]; [reflexivity|]). destruct E.
Qed.

Lemma to_digits_spec radix : (2 <= radix)%N -> forall fuel n acc, (n < 2 ^ N.of_nat fuel)%N ->
  exists ds, to_digits fuel n radix acc = map digit_char ds ++ acc /\
    Forall (fun d => (d < radix)%N) ds /\ int_value radix ds = Z.of_N n /\
    match ds with [] => n = 0%N | d :: _ => d <> 0%N end.
Proof.
  intros Hr. induction fuel as [|f IH]; intros n acc Hn.
  - simpl in Hn. exists []. assert (n = 0%N) by lia. subst. repeat split; constructor.
  - cbn [to_digits]. destruct (N.eqb_spec n 0) as [->|Hz].
    { exists []. repeat split; constructor. }
    assert (Hdiv : (n / radix < 2 ^ N.of_nat f)%N).
    { apply N.div_lt_upper_bound; [lia|]. rewrite Nat2N.inj_succ, N.pow_succ_r' in Hn. nia. }
    destruct (IH (n / radix)%N (digit_char (n mod radix) :: acc) Hdiv) as (ds & E & Hf & Hv & Hh).
    exists (ds ++ [(n mod radix)%N]). rewrite E, map_app, <- app_assoc. split; [reflexivity|].
    assert (Hm : (n mod radix < radix)%N) by (apply N.mod_lt; lia).
    split; [apply Forall_app; split; [exact Hf|constructor; [exact Hm|constructor]]|].
    split.
    + rewrite int_value_app, Hv. cbn [int_value List.length Z.of_nat]. change (Z.of_nat 1) with 1%Z. rewrite Z.pow_1_r, Z.pow_0_r.
      pose proof (N.div_mod n radix ltac:(lia)). nia.
    + destruct ds as [|d ds]; simpl; [|exact Hh].
      pose proof (N.div_mod n radix ltac:(lia)). rewrite Hh in H. lia.
Qed.

(** The digits of a natural number: no superfluous leading zero. *)
Lemma biguint_to_str_spec n radix : (2 <= radix)%N ->
  exists ds, biguint_to_str n radix = map digit_char ds /\ ds <> [] /\
    Forall (fun d => (d < radix)%N) ds /\ int_value radix ds = Z.of_N n /\
    (forall d ds', ds = d :: ds' -> d = 0%N -> ds' = [] /\ n = 0%N).
Proof.
  intros Hr. unfold biguint_to_str. destruct (N.eqb_spec n 0) as [->|Hz].
  { exists [0%N]. repeat split; try reflexivity; try discriminate.
    - constructor; [lia|constructor].
    - congruence. }
  assert (Hs : (n < 2 ^ N.of_nat (N.to_nat (N.size n)))%N) by (rewrite N2Nat.id; apply N.size_gt).
  destruct (to_digits_spec radix Hr _ n [] Hs) as (ds & E & Hf & Hv & Hh).
  exists ds. rewrite E, app_nil_r. split; [reflexivity|]. split; [destruct ds; [contradiction|discriminate]|].
  split; [exact Hf|]. split; [exact Hv|]. intros d ds' -> Hd. contradiction.
Qed.

Lemma map_digits_of radix ds : (radix <= 36)%N -> Forall (fun d => (d < radix)%N) ds ->
  digits_of radix (map digit_char ds) ds.
Proof.
  intros Hr H. induction H as [|d ds Hd _ IH]; constructor; [|exact IH].
  split; [apply digit_char_has; lia|exact Hd].
Qed.

Lemma digits_clean radix s ds : digits_of radix s ds ->
  Forall (fun c => c <> c_plus /\ c <> c_minus) s /\ Forall (fun c => c <> c_underscore) s.
Proof.
  induction 1 as [|c d s ds [Hc _] _ [IH1 IH2]]; [split; constructor|].
  apply has_digit_not in Hc as (A & _ & B & C & _). split; constructor; auto.
Qed.

Lemma parse_digits_to_str n radix : (2 <= radix <= 36)%N ->
  parse_digits radix 0 (biguint_to_str n radix) = Some n /\
  exists ds, digits_of radix (biguint_to_str n radix) ds /\ ds <> [].
Proof.
  intros Hr. destruct (biguint_to_str_spec n radix ltac:(lia)) as (ds & E & Hne & Hf & Hv & _).
  rewrite E. pose proof (map_digits_of radix ds ltac:(lia) Hf) as Hd.
  destruct (digits_clean _ _ _ Hd) as [_ Hu]. split; [|eauto].
  apply (parse_digits_spec radix 0 _ ltac:(lia) Hu). exists ds. split; [exact Hd|]. lia.
Qed.

(** Writing and reading back an integer. *)
Lemma parse_to_str {E F} z radix : (2 <= radix <= 36)%N ->
  exists s, to_str_radix (E := E) z radix = Ok s /\ parse_bytes (E := F) s radix = Ok (Some z).
Proof.
  intros Hr. pose proof (proj2 (radix_ok_spec radix) Hr) as Ho. unfold to_str_radix. rewrite Ho.
  eexists. split; [reflexivity|].
  destruct (parse_digits_to_str (Z.abs_N z) radix Hr) as (Hp & ds & Hd & Hne).
  destruct (digits_clean _ _ _ Hd) as [Hs Hu].
  set (s := biguint_to_str (Z.abs_N z) radix) in *.
  assert (Hs0 : s <> []). { intros E0. rewrite E0 in Hd. inversion Hd; subst. contradiction. }
  destruct (Z.ltb_spec z 0) as [Hz|Hz].
  - unfold parse_bytes. rewrite Ho, N.eqb_refl. f_equal.
    destruct s as [|c s']; [contradiction|].
    inversion Hs as [|? ? [Hp1 Hm] Hs']; subst. inversion Hu as [|? ? Hu1 Hu2]; subst.
    destruct (N.eqb_spec c c_plus); [contradiction|].
    unfold biguint_from_str. destruct (N.eqb_spec c c_plus); [contradiction|].
    destruct (N.eqb_spec c c_underscore); [contradiction|]. rewrite Hp. simpl. f_equal. lia.
  - rewrite parse_bytes_word by assumption. f_equal. destruct s; [contradiction|].
    rewrite Hp. simpl. f_equal. lia.
Qed.

Lemma show_Z_radix {E} z : to_str_radix (E := E) z 10 = Ok (show_Z z).
Proof. reflexivity. Qed.
Lemma parse_show_Z {E} z : parse_bytes (E := E) (show_Z z) 10 = Ok (Some z).
Proof.
  destruct (parse_to_str (E := unit) (F := E) z 10 ltac:(lia)) as (s & H & P).
  rewrite show_Z_radix in H. injection H as <-. exact P.
Qed.
