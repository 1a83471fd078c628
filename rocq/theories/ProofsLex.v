(** ProofsLex.v -- the tokenizer of src/token.rs computes exactly the readings of SpecLex.v. *)
From Verif Require Import Base Position Num TokenTypes Errors Token SpecLex ProofsPosition.
From Coq Require Import String Qpower.
Local Open Scope list_scope.

(** ** Character classes *)

Lemma single_char_In c t : single_char_token c = Some t <-> In ([c], t) punctuation.
Proof.
  unfold single_char_token, punctuation. split.
  - repeat match goal with
    | |- (if N.eqb c ?k then _ else _) = _ -> _ =>
        destruct (N.eqb_spec c k) as [->|_]; [intros [= <-]; simpl; tauto|]
    end. discriminate.
  - intros H. repeat (destruct H as [H|H]; [injection H as <- <-; reflexivity|]). destruct H.
Qed.
Lemma single_char_none c : single_char_token c = None <-> ~ punct_char c.
Proof.
  unfold punct_char. split.
  - intros H (t & Ht). apply single_char_In in Ht. congruence.
  - intros H. destruct (single_char_token c) as [t|] eqn:E; [|reflexivity].
    exfalso. apply H. exists t. apply single_char_In; assumption.
Qed.
Lemma punct_not_blank c : punct_char c -> is_ascii_whitespace c = false.
Proof.
  intros (t & H). unfold punctuation in H. simpl in H.
  repeat (destruct H as [H|H]; [injection H as <- <-; reflexivity|]). destruct H.
Qed.
Lemma word_char_iff c :
  word_char c <-> is_ascii_whitespace c = false /\ single_char_token c = None.
Proof.
  unfold word_char. rewrite blank_ws, single_char_none.
  destruct (is_ascii_whitespace c); intuition congruence.
Qed.
Lemma word_char_dec c : {word_char c} + {~ word_char c}.
Proof.
  destruct (is_ascii_whitespace c) eqn:E.
  - right. rewrite word_char_iff. intros []; congruence.
  - destruct (single_char_token c) eqn:F.
    + right. rewrite word_char_iff. intros []; congruence.
    + left. apply word_char_iff; auto.
Qed.

Lemma str_eqb_eq a b : str_eqb a b = true <-> a = b.
Proof.
  revert b; induction a as [|x a IH]; destruct b as [|y b]; simpl; try (split; congruence).
  rewrite andb_true_iff, N.eqb_eq, IH. split; [intros [-> ->]; reflexivity|].
  intros [= -> ->]; auto.
Qed.
Lemma str_eqb_refl a : str_eqb a a = true.
Proof. apply str_eqb_eq; reflexivity. Qed.
Lemma str_eqb_neq a b : str_eqb a b = false <-> a <> b.
Proof. rewrite <- str_eqb_eq. destruct (str_eqb a b); intuition congruence. Qed.

Lemma assoc_cons {A} k k' (v : A) m :
  assoc k ((k', v) :: m) = if str_eqb k k' then Some v else assoc k m.
Proof. reflexivity. Qed.
Lemma token_map_assoc w t : assoc w token_map = Some t <-> In (w, t) keywords.
Proof.
  unfold token_map, keywords. split.
  - rewrite !assoc_cons.
    destruct (str_eqb w (lit "sqrt")) eqn:E1; [apply str_eqb_eq in E1; subst w; intros H; injection H as <-; left; reflexivity|].
    destruct (str_eqb w (lit "abs")) eqn:E2; [apply str_eqb_eq in E2; subst w; intros H; injection H as <-; right; left; reflexivity|].
    destruct (str_eqb w (lit "max")) eqn:E3; [apply str_eqb_eq in E3; subst w; intros H; injection H as <-; do 2 right; left; reflexivity|].
    destruct (str_eqb w (lit "min")) eqn:E4; [apply str_eqb_eq in E4; subst w; intros H; injection H as <-; do 3 right; left; reflexivity|].
    discriminate.
  - intros H. repeat (destruct H as [H|H]; [apply pair_equal_spec in H as [<- <-]; reflexivity|]). destruct H.
Qed.

(** ** Digits *)

Lemma digit_table_ok :
  forallb (fun k =>
    let c := N.of_nat k in
    if N.ltb (digit_val c) 36 then
      match nth_error (lit "0123456789abcdefghijklmnopqrstuvwxyz") (N.to_nat (digit_val c)),
            nth_error (lit "0123456789ABCDEFGHIJKLMNOPQRSTUVWXYZ") (N.to_nat (digit_val c)) with
      | Some a, Some b => N.eqb a c || N.eqb b c
      | _, _ => false
      end
    else true) (seq 0 128) = true.
Proof. vm_compute. reflexivity. Qed.

Lemma digit_val_ascii c : (digit_val c < 36)%N -> (c < 128)%N.
Proof.
  unfold digit_val.
  destruct (N.leb_spec 48 c), (N.leb_spec c 57), (N.leb_spec 97 c), (N.leb_spec c 122),
    (N.leb_spec 65 c), (N.leb_spec c 90); simpl; lia.
Qed.

Lemma digit_val_has_digit c : (digit_val c < 36)%N -> has_digit c (digit_val c).
Proof.
  intros H. pose proof (digit_val_ascii c H) as Ha.
  pose proof digit_table_ok as T. rewrite forallb_forall in T.
  specialize (T (N.to_nat c)). rewrite in_seq in T.
  specialize (T ltac:(lia)). rewrite N2Nat.id in T. cbv zeta in T.
  apply N.ltb_lt in H. rewrite H in T.
  unfold has_digit.
  destruct (nth_error (lit "0123456789abcdefghijklmnopqrstuvwxyz") _) as [a|]; [|discriminate].
  destruct (nth_error (lit "0123456789ABCDEFGHIJKLMNOPQRSTUVWXYZ") _) as [b|]; [|discriminate].
  apply orb_true_iff in T. rewrite !N.eqb_eq in T. destruct T as [->| ->]; auto.
Qed.

Lemma has_digit_table :
  forallb (fun k =>
    match nth_error (lit "0123456789abcdefghijklmnopqrstuvwxyz") k,
          nth_error (lit "0123456789ABCDEFGHIJKLMNOPQRSTUVWXYZ") k with
    | Some a, Some b => N.eqb (digit_val a) (N.of_nat k) && N.eqb (digit_val b) (N.of_nat k)
    | _, _ => false
    end) (seq 0 36) = true.
Proof. vm_compute. reflexivity. Qed.

Lemma has_digit_val c d : has_digit c d -> digit_val c = d /\ (d < 36)%N.
Proof.
  intros H.
  assert (Hd : (N.to_nat d < 36)%nat).
  { destruct H as [H|H];
      (assert (X : nth_error _ (N.to_nat d) <> None) by (rewrite H; discriminate);
       apply nth_error_Some in X; exact X). }
  split; [|lia].
  pose proof has_digit_table as T. rewrite forallb_forall in T.
  specialize (T (N.to_nat d)). rewrite in_seq in T. specialize (T ltac:(lia)).
  rewrite N2Nat.id in T. unfold has_digit in H.
  destruct (nth_error (lit "0123456789abcdefghijklmnopqrstuvwxyz") _) as [a|]; [|discriminate].
  destruct (nth_error (lit "0123456789ABCDEFGHIJKLMNOPQRSTUVWXYZ") _) as [b|]; [|discriminate].
  apply andb_true_iff in T. rewrite !N.eqb_eq in T.
  destruct T as [Ta Tb]. destruct H as [[= ->]|[= ->]]; assumption.
Qed.

Lemma has_digit_not c d : has_digit c d -> c <> c_underscore /\ c <> c_dot /\ c <> c_plus /\ c <> c_minus /\ c <> c_dollar.
Proof.
  intros H. apply has_digit_val in H as [Hv Hd].
  repeat split; intros ->; vm_compute in Hv; subst d; revert Hd; vm_compute; discriminate.
Qed.

Lemma digits_of_app radix a b ds :
  digits_of radix (a ++ b) ds <->
  exists da db, ds = da ++ db /\ digits_of radix a da /\ digits_of radix b db.
Proof.
  unfold digits_of. split.
  - intros H. apply Forall2_app_inv_l in H as (da & db & Ha & Hb & ->). eauto.
  - intros (da & db & -> & Ha & Hb). apply Forall2_app; assumption.
Qed.
Lemma digits_of_length radix s ds : digits_of radix s ds -> List.length s = List.length ds.
Proof. induction 1; simpl; congruence. Qed.
Lemma digits_of_det radix s d1 d2 : digits_of radix s d1 -> digits_of radix s d2 -> d1 = d2.
Proof.
  intros H1. revert d2. induction H1 as [|c d s ds [Hc _] _ IH]; intros d2 H2.
  - inversion H2; reflexivity.
  - inversion H2 as [|? d' ? ds' [Hc' _] H2']; subst.
    apply has_digit_val in Hc as [<- _]. apply has_digit_val in Hc' as [<- _].
    f_equal. apply IH; assumption.
Qed.

Lemma int_value_app radix a b :
  int_value radix (a ++ b) =
  (int_value radix a * Z.of_N radix ^ Z.of_nat (List.length b) + int_value radix b)%Z.
Proof.
  induction a as [|d a IH]; simpl; [lia|].
  rewrite IH, app_length, Nat2Z.inj_add, Z.pow_add_r by lia. ring.
Qed.
Lemma int_value_nonneg radix ds : (0 <= int_value radix ds)%Z.
Proof.
  induction ds as [|d ds IH]; simpl; [lia|].
  pose proof (Z.pow_nonneg (Z.of_N radix) (Z.of_nat (List.length ds)) ltac:(lia)). nia.
Qed.

Lemma frac_value_int radix ds : (0 < radix)%N ->
  (frac_value radix ds ==
   inject_Z (int_value radix ds) / inject_Z (Z.of_N radix ^ Z.of_nat (List.length ds)))%Q.
Proof.
  intros Hr. induction ds as [|d ds IH].
  - reflexivity.
  - cbn [frac_value int_value List.length]. rewrite IH.
    rewrite Nat2Z.inj_succ, Z.pow_succ_r by lia.
    rewrite inject_Z_plus, !inject_Z_mult.
    assert (A : ~ (inject_Z (Z.of_N radix) == 0)%Q).
    { unfold Qeq; simpl. lia. }
    assert (B : ~ (inject_Z (Z.of_N radix ^ Z.of_nat (List.length ds)) == 0)%Q).
    { unfold Qeq; simpl. assert (0 < Z.of_N radix ^ Z.of_nat (List.length ds))%Z by (apply Z.pow_pos_nonneg; lia). lia. }
    field. split; assumption.
Qed.

Lemma parse_digits_spec radix acc s :
  (radix <= 36)%N -> Forall (fun c => c <> c_underscore) s ->
  (forall n, parse_digits radix acc s = Some n <->
     exists ds, digits_of radix s ds /\
       Z.of_N n = (Z.of_N acc * Z.of_N radix ^ Z.of_nat (List.length ds) + int_value radix ds)%Z).
Proof.
  intros Hr. revert acc. induction s as [|c s IH]; intros acc Hf n.
  - simpl. split.
    + intros [= <-]. exists []. split; [constructor|]. simpl. lia.
    + intros (ds & Hd & Hn). inversion Hd; subst. simpl in Hn. f_equal. lia.
  - inversion Hf as [|? ? Hc Hs]; subst. cbn [parse_digits].
    destruct (N.eqb_spec c c_underscore) as [|_]; [contradiction|].
    destruct (N.ltb_spec (digit_val c) radix) as [Hlt|Hge].
    + rewrite IH by assumption. split.
      * intros (ds & Hd & Hn). exists (digit_val c :: ds). split.
        -- constructor; [split; [apply digit_val_has_digit; lia|assumption]|assumption].
        -- cbn [List.length int_value]. rewrite Nat2Z.inj_succ, Z.pow_succ_r by lia. rewrite Hn. lia.
      * intros (ds & Hd & Hn). inversion Hd as [|? d ? ds' [Hc' Hlt'] Hd']; subst.
        apply has_digit_val in Hc' as [<- _]. exists ds'. split; [assumption|].
        cbn [List.length int_value] in Hn. rewrite Nat2Z.inj_succ, Z.pow_succ_r in Hn by lia.
        rewrite Hn. lia.
    + split; [discriminate|]. intros (ds & Hd & _).
      inversion Hd as [|? d ? ds' [Hc' Hlt'] Hd']; subst.
      apply has_digit_val in Hc' as [<- _]. lia.
Qed.

(** ** clean_number *)

Lemma no_us_cons c w : no_underscores (c :: w) =
  if N.eqb c c_underscore then no_underscores w else c :: no_underscores w.
Proof. unfold no_underscores. change 95%N with c_underscore. simpl. destruct (N.eqb c c_underscore); reflexivity. Qed.
Lemma no_us_app a b : no_underscores (a ++ b) = no_underscores a ++ no_underscores b.
Proof. apply filter_app. Qed.
Lemma no_us_none w : Forall (fun c => c <> c_underscore) (no_underscores w).
Proof.
  apply Forall_forall. intros c H. apply filter_In in H as [_ H].
  apply negb_true_iff, N.eqb_neq in H. assumption.
Qed.

Lemma clean_number_seen w clean i : clean_number w clean (Some i) = (clean ++ no_underscores w, Some i).
Proof.
  revert clean. induction w as [|c w IH]; intros clean; cbn [clean_number].
  - unfold no_underscores; simpl. rewrite app_nil_r. reflexivity.
  - rewrite no_us_cons. destruct (N.eqb c c_underscore) eqn:E; [apply IH|].
    rewrite andb_false_r, IH, <- app_assoc. reflexivity.
Qed.
Lemma clean_number_nodot w clean :
  ~ In c_dot w -> clean_number w clean None = (clean ++ no_underscores w, None).
Proof.
  revert clean. induction w as [|c w IH]; intros clean H; cbn [clean_number].
  - unfold no_underscores; simpl. rewrite app_nil_r. reflexivity.
  - rewrite no_us_cons. simpl in H. destruct (N.eqb c c_underscore) eqn:E; [apply IH; tauto|].
    destruct (N.eqb_spec c c_dot) as [->|Hn]; [tauto|]. simpl.
    rewrite IH by tauto. rewrite <- app_assoc. reflexivity.
Qed.
Lemma clean_number_dot a b clean :
  ~ In c_dot a ->
  clean_number (a ++ c_dot :: b) clean None =
  (clean ++ no_underscores a ++ no_underscores b, Some (List.length (clean ++ no_underscores a))).
Proof.
  revert clean. induction a as [|c a IH]; intros clean H; cbn [clean_number app].
  - change (N.eqb c_dot c_underscore) with false. rewrite N.eqb_refl. cbn [andb].
    rewrite clean_number_seen. simpl. rewrite app_nil_r. reflexivity.
  - rewrite no_us_cons. simpl in H. destruct (N.eqb c c_underscore) eqn:E; [apply IH; tauto|].
    destruct (N.eqb_spec c c_dot) as [->|Hn]; [tauto|]. cbn [andb].
    rewrite IH by tauto. rewrite <- !app_assoc. reflexivity.
Qed.

Lemma first_dot w : ~ In c_dot w \/ exists a b, w = a ++ c_dot :: b /\ ~ In c_dot a.
Proof.
  induction w as [|c w IH]; [left; intros []|].
  destruct (N.eq_dec c c_dot) as [->|Hn].
  - right. exists [], w. split; [reflexivity|intros []].
  - destruct IH as [H|(a & b & -> & H)].
    + left. intros [->|]; auto.
    + right. exists (c :: a), b. split; [reflexivity|]. intros [->|]; auto.
Qed.

Lemma digits_no_dot radix s ds : digits_of radix s ds -> ~ In c_dot s.
Proof.
  induction 1 as [|c d s ds [Hc _] _ IH]; [intros []|].
  intros [->|H]; [|auto]. apply has_digit_not in Hc. intuition congruence.
Qed.

(** words contain no sign *)
Lemma word_no_sign w : Forall word_char w -> Forall (fun c => c <> c_plus /\ c <> c_minus) w.
Proof.
  apply Forall_impl. intros c H. apply word_char_iff in H as [_ H].
  split; intros ->; vm_compute in H; discriminate.
Qed.

Lemma parse_bytes_word {E} radix s :
  radix_ok radix = true ->
  Forall (fun c => c <> c_plus /\ c <> c_minus) s ->
  Forall (fun c => c <> c_underscore) s ->
  parse_bytes (E := E) s radix =
  Ok (match s with [] => None | _ => option_map Z.of_N (parse_digits radix 0 s) end).
Proof.
  intros Hr Hs Hu. unfold parse_bytes. rewrite Hr. f_equal.
  destruct s as [|c s]; [reflexivity|].
  inversion Hs as [|? ? [Hp Hm] Hs']; subst. inversion Hu as [|? ? Hu1 Hu2]; subst.
  destruct (N.eqb_spec c c_minus); [contradiction|].
  unfold biguint_from_str. destruct (N.eqb_spec c c_plus); [contradiction|].
  destruct (N.eqb_spec c c_underscore); [contradiction|]. reflexivity.
Qed.

Lemma Forall_no_us {P : char -> Prop} w : Forall P w -> Forall P (no_underscores w).
Proof.
  rewrite !Forall_forall. intros H c Hc. apply filter_In in Hc as [Hc _]. auto.
Qed.

Lemma radix_ok_spec radix : radix_ok radix = true <-> (2 <= radix <= 36)%N.
Proof. unfold radix_ok. rewrite andb_true_iff, !N.leb_le. tauto. Qed.

Lemma ratio_new_pos {E} n d : (0 < d)%Z ->
  exists v, ratio_new (E := E) n d = Ok v /\ Qred v = v /\ (v == inject_Z n / inject_Z d)%Q.
Proof.
  destruct d as [|p|p]; try lia. intros _. exists (Qred (n # p)).
  split; [reflexivity|]. split.
  - apply Qred_complete, Qred_correct.
  - rewrite Qred_correct. unfold Qeq, Qdiv, Qmult, Qinv, inject_Z; simpl. lia.
Qed.

(** What [tokenize_on_multichar_end] does with a numeric word. *)
Lemma canon_eq a b : Qred a = a -> Qred b = b -> (a == b)%Q -> a = b.
Proof. intros Ha Hb H. rewrite <- Ha, <- Hb. apply Qred_complete. assumption. Qed.

Definition number_result (radix : N) (w : str) : lex_result (option Q) :=
  let '(clean, dec) := clean_number w [] None in
  maybe_numer <- parse_bytes clean radix ;;
  match maybe_numer with
  | None => Ok None
  | Some numer =>
      v <- ratio_new numer (match dec with
                  | Some i => Z.pow (Z.of_N radix) (Z.of_nat (List.length clean - i))
                  | None => 1%Z
                  end) ;;
      Ok (Some v)
  end.

Lemma no_us_in_dot w : In c_dot (no_underscores w) <-> In c_dot w.
Proof.
  unfold no_underscores. rewrite filter_In. split; [tauto|]. intros; split; [assumption|reflexivity].
Qed.
Lemma app_dot_inj a b a' b' : a ++ c_dot :: b = a' ++ c_dot :: b' ->
  ~ In c_dot a -> ~ In c_dot a' -> a = a' /\ b = b'.
Proof.
  revert a'. induction a as [|x a IH]; destruct a' as [|y a']; simpl; intros H Ha Ha'.
  - injection H as ->. auto.
  - exfalso. apply Ha'. left. congruence.
  - exfalso. apply Ha. left. congruence.
  - injection H as -> H. destruct (IH a' H) as [-> ->]; tauto.
Qed.

Lemma number_result_spec radix w :
  radix_ok radix = true -> Forall word_char w ->
  exists r, number_result radix w = Ok r /\ forall v, numeral radix w v <-> r = Some v.
Proof.
  intros Hr Hw. pose proof (proj1 (radix_ok_spec _) Hr) as Hr'.
  pose proof (word_no_sign _ Hw) as Hsign.
  unfold number_result.
  destruct (first_dot w) as [Hnd|(a & b & -> & Hnd)].
  - rewrite clean_number_nodot by assumption. cbn [app].
    rewrite parse_bytes_word; [|assumption|apply Forall_no_us; assumption|apply no_us_none].
    cbn [bind].
    destruct (no_underscores w) as [|c0 s0] eqn:Enw.
    + exists None. split; [reflexivity|]. intros v. split; [|discriminate].
      intros [_ [(ds & Hne & Hd & _)|(ip & fp & ids & fds & Hw' & _)]]; rewrite Enw in *.
      * inversion Hd; subst; congruence.
      * destruct ip; discriminate.
    + assert (Hpd := parse_digits_spec radix 0 (c0 :: s0) ltac:(lia)).
      rewrite <- Enw in Hpd. specialize (Hpd (no_us_none w)). rewrite Enw in Hpd.
      destruct (parse_digits radix 0 (c0 :: s0)) as [n|] eqn:Ep.
      * destruct (proj1 (Hpd n) eq_refl) as (ds & Hd & Hn). cbn [option_map].
        destruct (ratio_new_pos (E := positioned parse_error) (Z.of_N n) 1 ltac:(lia)) as (v & Hv & Hc & He).
        rewrite Hv. cbn [bind]. exists (Some v). split; [reflexivity|].
        assert (Hval : (v == inject_Z (int_value radix ds))%Q).
        { rewrite He, Hn. simpl. unfold Qeq, Qdiv, inject_Z; simpl. lia. }
        intros v'. split.
        -- intros [Hc' [(ds' & Hne & Hd' & He')|(ip & fp & ids & fds & Hw' & Hi & Hf & _ & He')]];
             rewrite Enw in *.
           ++ f_equal. apply canon_eq; try assumption.
              rewrite Hval, He'. rewrite (digits_of_det _ _ _ _ Hd Hd'). reflexivity.
           ++ exfalso. apply Hnd. rewrite <- no_us_in_dot, Enw, Hw'.
              apply in_or_app. right; left; reflexivity.
        -- intros [= <-]. split; [assumption|]. left. exists ds. rewrite Enw.
           split; [intros ->; inversion Hd|]. split; assumption.
      * exists None. split; [reflexivity|]. intros v. split; [|discriminate].
        intros [_ [(ds & Hne & Hd & _)|(ip & fp & ids & fds & Hw' & _)]]; rewrite Enw in *.
        -- exfalso. assert (X : None = Some (Z.to_N (int_value radix ds))).
           { apply Hpd. exists ds. split; [assumption|]. rewrite Z2N.id by apply int_value_nonneg. lia. }
           discriminate.
        -- exfalso. apply Hnd. rewrite <- no_us_in_dot, Enw, Hw'.
           apply in_or_app. right; left; reflexivity.
  - rewrite clean_number_dot by assumption. cbn [app].
    set (na := no_underscores a). set (nb := no_underscores b).
    assert (Enw : no_underscores (a ++ c_dot :: b) = na ++ c_dot :: nb).
    { rewrite no_us_app, no_us_cons. reflexivity. }
    assert (Hsab : Forall (fun c => c <> c_plus /\ c <> c_minus) (na ++ nb)).
    { apply Forall_app in Hsign as [H1 H2]. inversion H2; subst. apply Forall_app; split; apply Forall_no_us; assumption. }
    assert (Huab : Forall (fun c => c <> c_underscore) (na ++ nb)).
    { apply Forall_app; split; apply no_us_none. }
    assert (Hnda : ~ In c_dot na) by (unfold na; rewrite no_us_in_dot; assumption).
    rewrite parse_bytes_word by assumption. cbn [bind].
    (* shape of any numeral reading *)
    assert (Hshape : forall v, numeral radix (a ++ c_dot :: b) v ->
      exists ids fds, digits_of radix na ids /\ digits_of radix nb fds /\ ids ++ fds <> [] /\ Qred v = v /\
        (v == inject_Z (int_value radix ids) + frac_value radix fds)%Q).
    { intros v [Hc [(ds & Hne & Hd & _)|(ip & fp & ids & fds & Hw' & Hi & Hf & Hne & He)]].
      - exfalso. rewrite Enw in Hd. apply (digits_no_dot _ _ _ Hd). apply in_or_app; right; left; reflexivity.
      - rewrite Enw in Hw'. destruct (app_dot_inj _ _ _ _ Hw' Hnda (digits_no_dot _ _ _ Hi)) as [<- <-].
        exists ids, fds. auto. }
    destruct (na ++ nb) as [|c0 s0] eqn:Eab.
    + exists None. split; [reflexivity|]. intros v. split; [|discriminate].
      intros Hn. destruct (Hshape v Hn) as (ids & fds & Hi & Hf & Hne & _).
      apply app_eq_nil in Eab as [E1 E2]. rewrite E1 in Hi. rewrite E2 in Hf.
      exfalso. apply Hne. apply digits_of_length in Hi. apply digits_of_length in Hf.
      destruct ids; [|discriminate]. destruct fds; [|discriminate]. reflexivity.
    + assert (Hpd := parse_digits_spec radix 0 (na ++ nb) ltac:(lia)).
      rewrite Eab in Hpd. specialize (Hpd Huab).
      destruct (parse_digits radix 0 (c0 :: s0)) as [n|] eqn:Ep.
      * destruct (proj1 (Hpd n) eq_refl) as (ds & Hd & Hn). cbn [option_map].
        rewrite <- Eab in Hd. apply digits_of_app in Hd as (ids & fds & -> & Hi & Hf).
        assert (Hlen : List.length (c0 :: s0) - List.length na = List.length fds).
        { rewrite <- Eab, app_length, <- (digits_of_length _ _ _ Hf). lia. }
        rewrite Hlen.
        assert (Hpos : (0 < Z.of_N radix ^ Z.of_nat (List.length fds))%Z) by (apply Z.pow_pos_nonneg; lia).
        destruct (ratio_new_pos (E := positioned parse_error) (Z.of_N n) _ Hpos) as (v & Hv & Hc & He).
        rewrite Hv. cbn [bind]. exists (Some v). split; [reflexivity|].
        assert (Hval : (v == inject_Z (int_value radix ids) + frac_value radix fds)%Q).
        { rewrite He, frac_value_int by lia. rewrite Hn, int_value_app, Z.mul_0_l, Z.add_0_l.
          rewrite inject_Z_plus, inject_Z_mult.
          field. unfold Qeq; simpl. lia. }
        intros v'. split.
        -- intros Hnum. destruct (Hshape v' Hnum) as (ids' & fds' & Hi' & Hf' & _ & Hc' & He').
           f_equal. apply canon_eq; try assumption. rewrite Hval, He'.
           rewrite (digits_of_det _ _ _ _ Hi Hi'), (digits_of_det _ _ _ _ Hf Hf'). reflexivity.
        -- intros [= <-]. split; [assumption|]. right. exists na, nb, ids, fds.
           split; [assumption|]. split; [assumption|]. split; [assumption|].
           split; [|assumption]. intros Hnil. apply app_eq_nil in Hnil as [-> ->].
           apply digits_of_length in Hi. apply digits_of_length in Hf.
           destruct na; [|discriminate]. destruct nb; discriminate.
      * exists None. split; [reflexivity|]. intros v. split; [|discriminate].
        intros Hnum. destruct (Hshape v Hnum) as (ids & fds & Hi & Hf & _).
        exfalso. assert (X : None = Some (Z.to_N (int_value radix (ids ++ fds)))).
        { apply Hpd. exists (ids ++ fds). split.
          - rewrite <- Eab. apply digits_of_app; eauto.
          - rewrite Z2N.id by apply int_value_nonneg. lia. }
        discriminate.
Qed.

(** ** One word *)

Lemma multichar_word radix toks w stop :
  radix_ok radix = true -> w <> [] -> Forall word_char w ->
  (exists t, word_token radix w t /\
     (forall t', word_token radix w t' -> t' = t) /\
     tokenize_on_multichar_end toks w stop radix =
     Ok (toks ++ [mkPositioned t (mkPos (stop - List.length w) (List.length w))]))
  \/
  ((forall t, ~ word_token radix w t) /\
   tokenize_on_multichar_end toks w stop radix =
   Err (mkPositioned (InvalidNumber w) (mkPos (stop - List.length w) (List.length w)))).
Proof.
  intros Hr Hne Hw. destruct w as [|c0 w0]; [congruence|]. clear Hne.
  remember (c0 :: w0) as w eqn:Ew.
  assert (Hnum := number_result_spec radix w Hr Hw). destruct Hnum as (r & Hr1 & Hr2).
  assert (Hdollar_num : c0 = c_dollar -> forall v, ~ numeral radix w v).
  { intros -> v [_ [(ds & Hne & Hd & _)|(ip & fp & ids & fds & Hw' & Hi & Hf & _)]];
      rewrite Ew, no_us_cons in *; cbn [N.eqb] in *.
    - inversion Hd as [|? ? ? ? [Hx _]]; subst. apply has_digit_not in Hx. change c_dollar with 36%N in Hx. intuition congruence.
    - change (N.eqb c_dollar c_underscore) with false in Hw'. cbv iota in Hw'.
      destruct ip as [|x ip]; simpl in Hw'; [discriminate|]. injection Hw' as <- _.
      inversion Hi as [|? ? ? ? [Hx _]]; subst. apply has_digit_not in Hx. change c_dollar with 36%N in Hx. intuition congruence. }
  assert (Hdollar_kw : c0 = c_dollar -> forall t, ~ In (w, t) keywords).
  { intros -> t H. subst w. simpl in H.
    repeat (destruct H as [H|H]; [discriminate|]). exact H. }
  assert (Hmc : tokenize_on_multichar_end toks w stop radix =
     if N.eqb c0 c_dollar then Ok (toks ++ [new_raw (TVariable w) (stop - List.length w) (List.length w)])
     else match assoc w token_map with
          | Some t => Ok (toks ++ [new_raw t (stop - List.length w) (List.length w)])
          | None => bind (number_result radix w) (fun r => match r with
                | None => Err (new_raw (InvalidNumber w) (stop - List.length w) (List.length w))
                | Some v => Ok (toks ++ [new_raw (TNumber v) (stop - List.length w) (List.length w)])
                end)
          end).
  { subst w. unfold tokenize_on_multichar_end, number_result.
    destruct (N.eqb c0 c_dollar); [reflexivity|].
    destruct (assoc (c0 :: w0) token_map); [reflexivity|].
    destruct (clean_number (c0 :: w0) [] None) as [clean dec].
    destruct (parse_bytes clean radix) as [[z|]|e|p]; cbn [bind]; try reflexivity.
    destruct (ratio_new z _); reflexivity. }
  rewrite Hmc. clear Hmc. unfold new_raw.
  destruct (N.eqb_spec c0 c_dollar) as [Hd|Hd].
  - left. exists (TVariable w). split; [subst; apply (wt_variable radix w0)|]. split; [|reflexivity].
    intros t' Ht'. inversion Ht' as [name|? ? Hin|? v Hnk Hv]; subst t'; try subst w1.
    + congruence.
    + exfalso. eapply Hdollar_kw; eauto.
    + exfalso. eapply Hdollar_num; eauto.
  - destruct (assoc w token_map) as [t|] eqn:Ea.
    + left. apply token_map_assoc in Ea. exists t. split; [apply wt_keyword; assumption|].
      split; [|reflexivity].
      intros t' Ht'. inversion Ht' as [name Hname|? ? Hin|? v Hnk Hv]; subst t'; try subst w1.
      * exfalso. apply Hd. rewrite Ew in Hname. injection Hname as <- _. reflexivity.
      * apply token_map_assoc in Hin. apply token_map_assoc in Ea. congruence.
      * exfalso. eapply Hnk; eauto.
    + assert (Hnk : forall t, ~ In (w, t) keywords).
      { intros t Ht. apply token_map_assoc in Ht. congruence. }
      rewrite Hr1. cbn [bind]. destruct r as [v|].
      * left. exists (TNumber v). split; [apply wt_number; [assumption|apply Hr2; reflexivity]|].
        split; [|reflexivity].
        intros t' Ht'. inversion Ht' as [name Hname|? ? Hin|? v' _ Hv]; subst t'; try subst w1.
        -- exfalso. apply Hd. rewrite Ew in Hname. injection Hname as <- _. reflexivity.
        -- exfalso. eapply Hnk; eauto.
        -- apply Hr2 in Hv. congruence.
      * right. split; [|reflexivity].
        intros t' Ht'. inversion Ht' as [name Hname|? ? Hin|? v' _ Hv]; subst t'; try subst w1.
        -- apply Hd. rewrite Ew in Hname. injection Hname as <- _. reflexivity.
        -- eapply Hnk; eauto.
        -- apply Hr2 in Hv. congruence.
Qed.

(** ** The main loop *)

Lemma loop_absorb w s pos toks buf radix :
  Forall word_char w ->
  tokenize_loop (w ++ s) pos toks buf radix = tokenize_loop s (pos + List.length w) toks (buf ++ w) radix.
Proof.
  intros H. revert pos buf. induction H as [|c w Hc Hw IH]; intros pos buf; cbn [app tokenize_loop List.length].
  - rewrite Nat.add_0_r, app_nil_r. reflexivity.
  - apply word_char_iff in Hc as [-> ->]. rewrite IH, <- app_assoc.
    f_equal. lia.
Qed.

Lemma loop_flush s pos toks buf radix :
  word_ends s ->
  tokenize_loop s pos toks buf radix =
  bind (tokenize_on_multichar_end toks buf pos radix) (fun toks' => tokenize_loop s pos toks' [] radix).
Proof.
  intros H. destruct s as [|c s]; cbn [tokenize_loop].
  - destruct (tokenize_on_multichar_end toks buf pos radix); reflexivity.
  - destruct (is_ascii_whitespace c) eqn:E.
    + destruct (tokenize_on_multichar_end toks buf pos radix); reflexivity.
    + destruct (single_char_token c) eqn:F.
      * destruct (tokenize_on_multichar_end toks buf pos radix); reflexivity.
      * exfalso. apply H. apply word_char_iff; auto.
Qed.

Lemma ends_outside_tail a b : b <> [] -> ends_outside (a ++ b) -> ends_outside b.
Proof.
  intros Hb [H|(p & c & H & Hc)].
  - apply app_eq_nil in H as [_ ->]. left; reflexivity.
  - right. destruct (exists_last Hb) as (b' & d & ->).
    rewrite app_assoc in H. apply app_inj_tail in H as [_ <-]. eauto.
Qed.

Lemma word_ends_app a s : word_ends a -> (a = [] -> word_ends s) -> word_ends (a ++ s).
Proof. destruct a as [|c a]; simpl; auto. Qed.

Lemma loop_reading radix o pre ts :
  radix_ok radix = true -> reading radix o pre ts ->
  forall s toks, (ends_outside pre \/ word_ends s) ->
  tokenize_loop (pre ++ s) o toks [] radix = tokenize_loop s (o + List.length pre) (toks ++ ts) [] radix.
Proof.
  intros Hr H. induction H as [o|o c s0 ts Hc H IH|o c t s0 ts Hc H IH|o w t s0 ts Hne Hw He Ht H IH];
    intros s toks Hb.
  - simpl. rewrite Nat.add_0_r, app_nil_r. reflexivity.
  - cbn [app tokenize_loop List.length]. apply blank_ws in Hc. rewrite Hc. cbn [tokenize_on_multichar_end bind].
    replace (S o) with (o + 1) by lia. rewrite IH.
    + f_equal. lia.
    + destruct Hb as [Hb|Hb]; [|auto]. destruct s0 as [|c1 s1]; [left; left; reflexivity|].
      left. apply (ends_outside_tail [c]); [discriminate|assumption].
  - cbn [app tokenize_loop List.length].
    assert (Hp : punct_char c) by (exists t; assumption).
    rewrite (punct_not_blank c Hp). apply single_char_In in Hc. rewrite Hc.
    cbn [tokenize_on_multichar_end bind]. unfold new_raw.
    replace (S o) with (o + 1) by lia. rewrite IH.
    + rewrite <- app_assoc. f_equal. lia.
    + destruct Hb as [Hb|Hb]; [|auto]. destruct s0 as [|c1 s1]; [left; left; reflexivity|].
      left. apply (ends_outside_tail [c]); [discriminate|assumption].
  - rewrite <- app_assoc, loop_absorb by assumption. cbn [app].
    assert (Hb' : ends_outside s0 \/ word_ends s).
    { destruct Hb as [Hb|Hb]; [|auto]. destruct s0 as [|c1 s1]; [left; left; reflexivity|].
      left. apply (ends_outside_tail w); [discriminate|assumption]. }
    rewrite loop_flush.
    + destruct (multichar_word radix toks w (o + List.length w) Hr Hne Hw) as [(t' & Ht' & Hu & Hok)|(Hno & _)].
      * rewrite Hok. cbn [bind]. rewrite <- (Hu t Ht).
        replace (o + List.length w - List.length w) with o by lia.
        rewrite IH by assumption. rewrite <- app_assoc, app_length. cbn [app]. f_equal. lia.
      * exfalso. eapply Hno; eauto.
    + apply word_ends_app; [assumption|]. intros ->. destruct Hb as [Hb|Hb]; [|assumption].
      exfalso. rewrite app_nil_r in Hb. destruct Hb as [Hb|(p & c & Hb & Hc)]; [congruence|].
      subst w. apply Forall_app in Hw as [_ Hw]. inversion Hw; subst. contradiction.
Qed.

(** Splitting off the maximal word. *)
Lemma split_word s : exists w r, s = w ++ r /\ Forall word_char w /\ word_ends r.
Proof.
  induction s as [|c s (w & r & -> & Hw & Hr)].
  - exists [], []. repeat split; constructor.
  - destruct (word_char_dec c) as [Hc|Hc].
    + exists (c :: w), r. repeat split; [constructor; assumption|assumption].
    + exists [], (c :: w ++ r). repeat split; [constructor|assumption].
Qed.

Lemma reading_cons_app radix o a ta b tb :
  reading radix o a ta -> reading radix (o + List.length a) b tb ->
  (ends_outside a \/ word_ends b) -> reading radix o (a ++ b) (ta ++ tb).
Proof.
  intros H. revert b tb. induction H as [o|o c s0 ts Hc H IH|o c t s0 ts Hc H IH|o w t s0 ts Hne Hw He Ht H IH];
    intros b tb Hb Hbd; cbn [app].
  - simpl in Hb. rewrite Nat.add_0_r in Hb. assumption.
  - apply rd_blank; [assumption|]. apply IH.
    + simpl in Hb. replace (o + 1 + List.length s0) with (o + S (List.length s0)) by lia. assumption.
    + destruct Hbd as [Hbd|Hbd]; [|auto]. destruct s0 as [|c1 s1]; [left; left; reflexivity|].
      left. apply (ends_outside_tail [c]); [discriminate|assumption].
  - apply rd_punct; [assumption|]. apply IH.
    + simpl in Hb. replace (o + 1 + List.length s0) with (o + S (List.length s0)) by lia. assumption.
    + destruct Hbd as [Hbd|Hbd]; [|auto]. destruct s0 as [|c1 s1]; [left; left; reflexivity|].
      left. apply (ends_outside_tail [c]); [discriminate|assumption].
  - rewrite <- app_assoc. apply rd_word; try assumption.
    + apply word_ends_app; [assumption|]. intros ->. destruct Hbd as [Hbd|Hbd]; [|assumption].
      exfalso. rewrite app_nil_r in Hbd. destruct Hbd as [Hbd|(p & c & Hbd & Hc)]; [congruence|].
      subst w. apply Forall_app in Hw as [_ Hw]. inversion Hw; subst. contradiction.
    + apply IH.
      * rewrite app_length in Hb. replace (o + List.length w + List.length s0) with (o + (List.length w + List.length s0)) by lia. assumption.
      * destruct Hbd as [Hbd|Hbd]; [|auto]. destruct s0 as [|c1 s1]; [left; left; reflexivity|].
        left. apply (ends_outside_tail w); [discriminate|assumption].
Qed.

(** The loop from an empty buffer: it succeeds with the reading, or fails at the first bad word. *)
Lemma loop_total radix s : radix_ok radix = true ->
  forall pre0 ts0, reading radix 0 pre0 ts0 -> (ends_outside pre0 \/ word_ends s) ->
  (exists ts, reading radix (List.length pre0) s ts /\
              tokenize_loop s (List.length pre0) ts0 [] radix = Ok (ts0 ++ ts))
  \/ (exists w i, bad_word radix (pre0 ++ s) w i /\
        tokenize_loop s (List.length pre0) ts0 [] radix =
        Err (mkPositioned (InvalidNumber w) (mkPos i (List.length w)))).
Proof.
  intros Hr. remember (List.length s) as n eqn:Hn. revert s Hn.
  induction n as [n IHn] using lt_wf_ind. intros s -> pre0 ts0 Hpre Hbd.
  destruct s as [|c s].
  - left. exists []. split; [constructor|]. simpl. rewrite app_nil_r. reflexivity.
  - destruct (is_ascii_whitespace c) eqn:Ews.
    + assert (Hpre' : reading radix 0 (pre0 ++ [c]) ts0).
      { rewrite <- (app_nil_r ts0). apply reading_cons_app; [assumption| |].
        - apply rd_blank; [apply blank_ws; assumption|]. constructor.
        - right. simpl. rewrite word_char_iff. intros []; congruence. }
      assert (Hbd' : ends_outside (pre0 ++ [c]) \/ word_ends s).
      { left. right. exists pre0, c. split; [reflexivity|]. rewrite word_char_iff. intros []; congruence. }
      destruct (IHn (List.length s) ltac:(simpl; lia) s eq_refl (pre0 ++ [c]) ts0 Hpre' Hbd')
        as [(ts & Hts & Hok)|(w & i & Hbad & Herr)].
      * left. exists ts. rewrite app_length in Hts, Hok. simpl in Hts, Hok.
        split; [apply rd_blank; [apply blank_ws|]; assumption|].
        cbn [tokenize_loop]. rewrite Ews. cbn [tokenize_on_multichar_end bind].
        replace (S (List.length pre0)) with (List.length pre0 + 1) by lia. assumption.
      * right. exists w, i. rewrite <- app_assoc in Hbad. split; [assumption|].
        rewrite app_length in Herr. simpl in Herr.
        cbn [tokenize_loop]. rewrite Ews. cbn [tokenize_on_multichar_end bind].
        replace (S (List.length pre0)) with (List.length pre0 + 1) by lia. assumption.
    + destruct (single_char_token c) as [t|] eqn:Esc.
      * set (tk := mkPositioned t (mkPos (List.length pre0) 1)).
        assert (Hpre' : reading radix 0 (pre0 ++ [c]) (ts0 ++ [tk])).
        { apply reading_cons_app; [assumption| |].
          - simpl. apply rd_punct; [apply single_char_In; assumption|]. constructor.
          - right. simpl. rewrite word_char_iff. intros []; congruence. }
        assert (Hbd' : ends_outside (pre0 ++ [c]) \/ word_ends s).
        { left. right. exists pre0, c. split; [reflexivity|]. rewrite word_char_iff. intros []; congruence. }
        destruct (IHn (List.length s) ltac:(simpl; lia) s eq_refl (pre0 ++ [c]) (ts0 ++ [tk]) Hpre' Hbd')
          as [(ts & Hts & Hok)|(w & i & Hbad & Herr)].
        -- left. exists (tk :: ts). rewrite app_length in Hts, Hok. simpl in Hts, Hok.
           split; [apply rd_punct; [apply single_char_In|]; assumption|].
           cbn [tokenize_loop]. rewrite Ews, Esc. cbn [tokenize_on_multichar_end bind].
           replace (S (List.length pre0)) with (List.length pre0 + 1) by lia.
           unfold new_raw. fold tk. rewrite Hok, <- app_assoc. reflexivity.
        -- right. exists w, i. rewrite <- app_assoc in Hbad. split; [assumption|].
           rewrite app_length in Herr. simpl in Herr.
           cbn [tokenize_loop]. rewrite Ews, Esc. cbn [tokenize_on_multichar_end bind].
           replace (S (List.length pre0)) with (List.length pre0 + 1) by lia. assumption.
      * assert (Hwc : word_char c) by (apply word_char_iff; auto).
        assert (Hout : ends_outside pre0) by (destruct Hbd as [|Hbd]; [assumption|contradiction]).
        destruct (split_word (c :: s)) as (w & r & Hsplit & Hw & Hends).
        assert (Hwne : w <> []).
        { intros ->. simpl in Hsplit. subst r. contradiction. }
        rewrite Hsplit. rewrite loop_absorb by assumption. rewrite loop_flush by assumption.
        cbn [app].
        destruct (multichar_word radix ts0 w (List.length pre0 + List.length w) Hr Hwne Hw)
          as [(t & Ht & Hu & Hok)|(Hno & Herr)].
        -- rewrite Hok. cbn [bind]. replace (List.length pre0 + List.length w - List.length w) with (List.length pre0) by lia.
           set (tk := mkPositioned t (mkPos (List.length pre0) (List.length w))).
           assert (Hpre' : reading radix 0 (pre0 ++ w) (ts0 ++ [tk])).
           { apply reading_cons_app; [assumption| |left; assumption].
             simpl. rewrite <- (app_nil_r w) at 1. apply rd_word; try assumption; [exact I|constructor]. }
           destruct (IHn (List.length r)) with (s := r) (pre0 := pre0 ++ w) (ts0 := ts0 ++ [tk])
             as [(ts & Hts & Hok2)|(w2 & i & Hbad & Herr2)]; try assumption; try reflexivity; auto.
           { rewrite Hsplit, app_length. destruct w; [congruence|simpl; lia]. }
           ++ left. exists (tk :: ts). rewrite app_length in Hts, Hok2.
              split; [apply rd_word; assumption|]. rewrite Hok2, <- app_assoc. reflexivity.
           ++ right. exists w2, i. rewrite <- app_assoc in Hbad. split; [assumption|].
              rewrite app_length in Herr2. assumption.
        -- right. exists w, (List.length pre0). rewrite Herr. cbn [bind].
           replace (List.length pre0 + List.length w - List.length w) with (List.length pre0) by lia.
           split; [|reflexivity].
           exists pre0, r, ts0. repeat split; auto.
Qed.

Lemma reading_loop radix s ts : radix_ok radix = true ->
  reading radix 0 s ts -> tokenize_loop s 0 [] [] radix = Ok ts.
Proof.
  intros Hr H. pose proof (loop_reading radix 0 s ts Hr H [] [] (or_intror I)) as E.
  rewrite app_nil_r in E. rewrite E. reflexivity.
Qed.

Lemma tokenize_loop_ok radix s ts : radix_ok radix = true ->
  tokenize_loop s 0 [] [] radix = Ok ts <-> reading radix 0 s ts.
Proof.
  intros Hr. split; [|apply reading_loop; assumption]. intros H.
  destruct (loop_total radix s Hr [] [] (rd_end _ _) (or_introl (or_introl eq_refl)))
    as [(ts' & Hts & Hok)|(w & i & _ & Herr)]; simpl in *; [|congruence].
  rewrite Hok in H. injection H as <-. assumption.
Qed.

Lemma bad_word_loop radix s w i : radix_ok radix = true ->
  bad_word radix s w i ->
  tokenize_loop s 0 [] [] radix = Err (mkPositioned (InvalidNumber w) (mkPos i (List.length w))).
Proof.
  intros Hr (pre & post & ts & -> & -> & Hpre & Hout & Hne & Hw & Hends & Hno).
  rewrite (loop_reading radix 0 pre ts Hr Hpre (w ++ post) [] (or_introl Hout)).
  rewrite loop_absorb by assumption. rewrite loop_flush by assumption. cbn [app].
  destruct (multichar_word radix ts w (0 + List.length pre + List.length w) Hr Hne Hw)
    as [(t & Ht & _)|(_ & Herr)]; [exfalso; eapply Hno; eauto|].
  rewrite Herr. cbn [bind]. f_equal. f_equal. f_equal. lia.
Qed.

Lemma tokenize_loop_err radix s e : radix_ok radix = true ->
  tokenize_loop s 0 [] [] radix = Err e <->
  exists w i, bad_word radix s w i /\ e = mkPositioned (InvalidNumber w) (mkPos i (List.length w)).
Proof.
  intros Hr. split.
  - intros H.
    destruct (loop_total radix s Hr [] [] (rd_end _ _) (or_introl (or_introl eq_refl)))
      as [(ts' & Hts & Hok)|(w & i & Hbad & Herr)]; simpl in *; [congruence|].
    rewrite Herr in H. injection H as <-. eauto.
  - intros (w & i & Hbad & ->). apply bad_word_loop; assumption.
Qed.

Lemma tokenize_loop_no_panic radix s p : radix_ok radix = true ->
  tokenize_loop s 0 [] [] radix <> Panic p.
Proof.
  intros Hr H.
  destruct (loop_total radix s Hr [] [] (rd_end _ _) (or_introl (or_introl eq_refl)))
    as [(ts' & Hts & Hok)|(w & i & Hbad & Herr)]; simpl in *; congruence.
Qed.

Lemma reading_unique radix s t1 t2 : radix_ok radix = true ->
  reading radix 0 s t1 -> reading radix 0 s t2 -> t1 = t2.
Proof.
  intros Hr H1 H2. apply (reading_loop _ _ _ Hr) in H1. apply (reading_loop _ _ _ Hr) in H2. congruence.
Qed.

(** ** Non-ASCII and commands *)

Lemma find_non_ascii_none s o : find_non_ascii s o = None <-> all_ascii s.
Proof.
  revert o. induction s as [|c s IH]; intros o; cbn [find_non_ascii].
  - split; [constructor|reflexivity].
  - unfold is_ascii. destruct (N.ltb_spec c 128).
    + rewrite IH. split; [constructor; assumption|inversion 1; assumption].
    + split; [discriminate|]. inversion 1; subst. lia.
Qed.
Lemma find_non_ascii_some s o i : find_non_ascii s o = Some i <->
  exists pre c post, s = pre ++ c :: post /\ i = o + List.length pre /\ all_ascii pre /\ (128 <= c)%N.
Proof.
  revert o. induction s as [|c s IH]; intros o; cbn [find_non_ascii].
  - split; [discriminate|]. intros ([|] & ? & ? & H & _); discriminate.
  - unfold is_ascii. destruct (N.ltb_spec c 128).
    + rewrite IH. split.
      * intros (pre & d & post & -> & -> & Ha & Hd). exists (c :: pre), d, post.
        repeat split; [simpl; lia|constructor; assumption|assumption].
      * intros ([|x pre] & d & post & Hs & Hi & Ha & Hd).
        -- injection Hs as -> ->. lia.
        -- injection Hs as -> ->. inversion Ha; subst. exists pre, d, post.
           repeat split; [simpl; lia|assumption|assumption].
    + split.
      * intros [= <-]. exists [], c, s. repeat split; [simpl; lia|constructor|assumption].
      * intros ([|x pre] & d & post & Hs & Hi & Ha & Hd).
        -- simpl in Hi. rewrite Hi. f_equal. lia.
        -- injection Hs as -> ->. inversion Ha; subst. lia.
Qed.

Lemma is_whitespace_space c : is_whitespace c = true <-> space c.
Proof.
  unfold is_whitespace, space. rewrite orb_true_iff, andb_true_iff, N.eqb_eq, !N.leb_le. tauto.
Qed.

Lemma trim_start_split s : exists pre, s = pre ++ trim_start s /\ Forall space pre /\
  (forall c r, trim_start s = c :: r -> ~ space c).
Proof.
  induction s as [|c s (pre & Hs & Hp & Hh)]; cbn [trim_start].
  - exists []. repeat split; [constructor|discriminate].
  - destruct (is_whitespace c) eqn:E.
    + exists (c :: pre). cbn [app]. rewrite <- Hs. repeat split; [|assumption].
      constructor; [apply is_whitespace_space; assumption|assumption].
    + exists []. repeat split; [constructor|]. intros d r [= <- <-]. rewrite <- is_whitespace_space. congruence.
Qed.
Lemma trim_start_spaces pre s : Forall space pre -> (forall c r, s = c :: r -> ~ space c) ->
  trim_start (pre ++ s) = s.
Proof.
  intros Hp Hs. induction Hp as [|c pre Hc Hp IH]; cbn [app trim_start].
  - destruct s as [|c s]; [reflexivity|]. cbn [trim_start].
    destruct (is_whitespace c) eqn:E; [|reflexivity].
    exfalso. apply (Hs c s eq_refl). apply is_whitespace_space; assumption.
  - apply is_whitespace_space in Hc. rewrite Hc. assumption.
Qed.

Lemma Forall_not_blank s : Forall (fun c => ~ blank c) s <-> Forall (fun c => ~ is_ascii_whitespace c = true) s.
Proof. split; intros H; (eapply Forall_impl; [|exact H]); intros c Hc K; apply Hc; apply blank_ws; exact K. Qed.
Lemma split_once_ws_none s : split_once_ws s = None <-> Forall (fun c => ~ blank c) s.
Proof.
  rewrite Forall_not_blank. induction s as [|c s IH]; cbn [split_once_ws].
  - split; [constructor|reflexivity].
  - destruct (is_ascii_whitespace c) eqn:E.
    + split; [discriminate|]. inversion 1; subst. congruence.
    + destruct (split_once_ws s) as [[a b]|] eqn:F; simpl.
      * split; [discriminate|]. inversion 1; subst. apply IH in H3. discriminate.
      * split; [|reflexivity]. intros _. constructor; [congruence|apply IH; reflexivity].
Qed.
Lemma split_once_ws_some_ws s a b : split_once_ws s = Some (a, b) <->
  exists c, s = a ++ c :: b /\ is_ascii_whitespace c = true /\ Forall (fun c => ~ is_ascii_whitespace c = true) a.
Proof.
  revert a b. induction s as [|c s IH]; intros a b; cbn [split_once_ws].
  - split; [discriminate|]. intros (c & H & _). destruct a; discriminate.
  - destruct (is_ascii_whitespace c) eqn:E.
    + split.
      * intros [= <- <-]. exists c. repeat split; [assumption|constructor].
      * intros (d & H & Hd & Ha). destruct a as [|x a]; injection H as -> ->; [reflexivity|].
        inversion Ha; subst. congruence.
    + destruct (split_once_ws s) as [[a' b']|] eqn:F; simpl.
      * split.
        -- intros [= <- <-]. destruct (proj1 (IH a' b') eq_refl) as (d & -> & Hd & Ha).
           exists d. repeat split; [assumption|]. constructor; [congruence|assumption].
        -- intros (d & H & Hd & Ha). destruct a as [|x a]; injection H as -> ->; [congruence|].
           inversion Ha; subst. f_equal. f_equal.
           ++ f_equal. assert (X : Some (a', b') = Some (a, b)) by (apply IH; eauto). congruence.
           ++ assert (X : Some (a', b') = Some (a, b)) by (apply IH; eauto). congruence.
      * split; [discriminate|]. intros (d & H & Hd & Ha).
        destruct a as [|x a]; injection H as -> ->; [congruence|].
        inversion Ha; subst. exfalso.
        assert (X : None = Some (a, b)) by (apply IH; eauto). discriminate.
Qed.
Lemma split_once_ws_some s a b : split_once_ws s = Some (a, b) <->
  exists c, s = a ++ c :: b /\ blank c /\ Forall (fun c => ~ blank c) a.
Proof.
  rewrite split_once_ws_some_ws. split; intros (c & H1 & H2 & H3); exists c;
    (split; [exact H1|]; split; [apply blank_ws; exact H2|apply Forall_not_blank; exact H3]).
Qed.

Lemma slash_not_space : ~ space c_slash.
Proof. unfold space. change c_slash with 47%N. lia. Qed.

Lemma command_line_split s : command_line s <-> exists body, trim_start s = c_slash :: body.
Proof.
  split.
  - intros (pre & body & -> & Hp). exists body. change (lit "/" ++ body) with (c_slash :: body).
    rewrite trim_start_spaces; [reflexivity|assumption|]. intros c r [= <- <-]. apply slash_not_space.
  - intros (body & H). destruct (trim_start_split s) as (pre & Hs & Hp & _).
    exists pre, body. rewrite H in Hs. auto.
Qed.

Lemma extract_command s : match maybe_extract_command s with
  | Some (PCommand n a) => command_parts s n a
  | Some (PTokens _) => False
  | None => ~ command_line s
  end.
Proof.
  unfold maybe_extract_command. destruct (trim_start_split s) as (pre & Hs & Hp & Hh).
  destruct (trim_start s) as [|c body] eqn:Et.
  - rewrite command_line_split. intros (b & H). congruence.
  - destruct (N.eqb_spec c c_slash) as [->|Hn].
    + destruct (split_once_ws body) as [[nm rest]|] eqn:E.
      * apply split_once_ws_some in E as (d & -> & Hd & Hnm).
        exists pre, (nm ++ d :: rest). split; [assumption|]. split; [assumption|]. right.
        exists nm, d, rest. unfold new_raw. rewrite Hs.
        do 3 (split; [auto|]). repeat (rewrite ?app_length; cbn [List.length]).
        split; do 2 f_equal; lia.
      * apply split_once_ws_none in E. exists pre, body. split; [assumption|]. split; [assumption|]. left.
        unfold new_raw. rewrite Hs.
        split; [auto|]. repeat (rewrite ?app_length; cbn [List.length]).
        split; do 2 f_equal; lia.
    + rewrite command_line_split. intros (b & H). congruence.
Qed.

Lemma command_parts_unique s n1 a1 n2 a2 :
  command_parts s n1 a1 -> command_parts s n2 a2 -> n1 = n2 /\ a1 = a2.
Proof.
  intros (p1 & b1 & H1 & Hp1 & C1) (p2 & b2 & H2 & Hp2 & C2).
  assert (Hpb : p1 = p2 /\ b1 = b2).
  { rewrite H2 in H1. clear H2 C1 C2. revert p1 H1 Hp1. induction Hp2 as [|c p2 Hc Hp2 IH]; intros p1 H1 Hp1.
    - destruct p1 as [|d p1]; simpl in H1; [injection H1 as ->; auto|].
      injection H1 as <- _. inversion Hp1; subst. exfalso; apply slash_not_space; assumption.
    - destruct p1 as [|d p1]; simpl in H1.
      + injection H1 as -> _. exfalso; apply slash_not_space; assumption.
      + injection H1 as <- H1. inversion Hp1; subst. destruct (IH p1 H1) as [-> ->]; auto. }
  destruct Hpb as [-> ->]. clear H1 H2.
  destruct C1 as [(Hb1 & -> & ->)|(nm & c & rest & Hb & Hnm & Hc & -> & ->)];
    destruct C2 as [(Hb2 & -> & ->)|(nm2 & c2 & rest2 & Hb' & Hnm2 & Hc2 & -> & ->)]; auto.
  - exfalso. subst b2. apply Forall_app in Hb1 as [_ Hb1]. inversion Hb1; subst. contradiction.
  - exfalso. subst b2. apply Forall_app in Hb2 as [_ Hb2]. inversion Hb2; subst. contradiction.
  - assert (X : split_once_ws b2 = Some (nm, rest)) by (apply split_once_ws_some; eauto).
    assert (Y : split_once_ws b2 = Some (nm2, rest2)) by (apply split_once_ws_some; eauto).
    rewrite X in Y. injection Y as <- <-. auto.
Qed.

Lemma command_parts_line s n a : command_parts s n a -> command_line s.
Proof. intros (pre & body & H & Hp & _). exists pre, body; auto. Qed.

(** ** tokenize *)

Lemma tokenize_tokens s radix ts : radix_ok radix = true ->
  tokenize s radix = Ok (PTokens ts) <->
  all_ascii s /\ ~ command_line s /\ reading radix 0 s ts.
Proof.
  intros Hr. unfold tokenize.
  destruct (find_non_ascii s 0) as [i|] eqn:Ea.
  - split; [discriminate|]. intros (Ha & _). apply (find_non_ascii_none s 0) in Ha. congruence.
  - apply find_non_ascii_none in Ea. pose proof (extract_command s) as X.
    destruct (maybe_extract_command s) as [[ts'|n a]|].
    + contradiction.
    + apply command_parts_line in X. split; [discriminate|]. intuition.
    + rewrite <- (tokenize_loop_ok radix s ts Hr).
      destruct (tokenize_loop s 0 [] [] radix) as [l|e|p]; cbn [bind]; split.
      * intros [= ->]. auto.
      * intros (_ & _ & [= ->]). reflexivity.
      * discriminate.
      * intros (_ & _ & H); discriminate.
      * discriminate.
      * intros (_ & _ & H); discriminate.
Qed.

Lemma tokenize_command s radix n a :
  tokenize s radix = Ok (PCommand n a) <-> all_ascii s /\ command_parts s n a.
Proof.
  unfold tokenize.
  destruct (find_non_ascii s 0) as [i|] eqn:Ea.
  - split; [discriminate|]. intros (Ha & _). apply (find_non_ascii_none s 0) in Ha. congruence.
  - apply find_non_ascii_none in Ea. pose proof (extract_command s) as X.
    destruct (maybe_extract_command s) as [[ts'|n' a']|].
    + contradiction.
    + split.
      * intros [= -> ->]. auto.
      * intros (_ & H). destruct (command_parts_unique _ _ _ _ _ X H) as [-> ->]. reflexivity.
    + split.
      * destruct (tokenize_loop s 0 [] [] radix); discriminate.
      * intros (_ & H). apply command_parts_line in H. contradiction.
Qed.

Lemma tokenize_error s radix e : radix_ok radix = true ->
  tokenize s radix = Err e <->
  (exists pre c post, s = pre ++ c :: post /\ all_ascii pre /\ (128 <= c)%N /\
      e = mkPositioned NonAscii (mkPos (List.length pre) 1))
  \/
  (all_ascii s /\ ~ command_line s /\
   exists w i, bad_word radix s w i /\ e = mkPositioned (InvalidNumber w) (mkPos i (List.length w))).
Proof.
  intros Hr. unfold tokenize.
  destruct (find_non_ascii s 0) as [i|] eqn:Ea.
  - split.
    + intros [= <-]. left. apply find_non_ascii_some in Ea as (pre & c & post & -> & -> & Ha & Hc).
      exists pre, c, post. auto.
    + intros [(pre & c & post & Hs & Ha & Hc & ->)|(Ha & _)].
      * assert (X : find_non_ascii s 0 = Some (0 + List.length pre)) by (apply find_non_ascii_some; exists pre, c, post; auto).
        rewrite X in Ea. injection Ea as <-. reflexivity.
      * apply (find_non_ascii_none s 0) in Ha. congruence.
  - pose proof Ea as Ea'. apply find_non_ascii_none in Ea. pose proof (extract_command s) as X.
    assert (Hno : ~ exists pre c post, s = pre ++ c :: post /\ all_ascii pre /\ (128 <= c)%N /\
      e = mkPositioned NonAscii (mkPos (List.length pre) 1)).
    { intros (pre & c & post & -> & _ & Hc & _). apply Forall_app in Ea as [_ Ea]. inversion Ea; subst. lia. }
    destruct (maybe_extract_command s) as [[ts'|n' a']|].
    + contradiction.
    + apply command_parts_line in X. split; [discriminate|]. intuition.
    + pose proof (tokenize_loop_err radix s e Hr) as L.
      destruct (tokenize_loop s 0 [] [] radix) as [l|e'|p]; cbn [bind]; split; intros H.
      * discriminate.
      * destruct H as [H|(_ & _ & H)]; [contradiction|]. apply L in H. discriminate.
      * injection H as <-. right. split; [assumption|]. split; [assumption|]. apply L. reflexivity.
      * destruct H as [H|(_ & _ & H)]; [contradiction|]. apply L in H. congruence.
      * discriminate.
      * destruct H as [H|(_ & _ & H)]; [contradiction|]. apply L in H. discriminate.
Qed.

Lemma tokenize_no_panic s radix p : radix_ok radix = true -> tokenize s radix <> Panic p.
Proof.
  intros Hr. unfold tokenize. destruct (find_non_ascii s 0); [discriminate|].
  destruct (maybe_extract_command s); [discriminate|].
  pose proof (tokenize_loop_no_panic radix s p Hr).
  destruct (tokenize_loop s 0 [] [] radix); cbn [bind]; congruence.
Qed.
