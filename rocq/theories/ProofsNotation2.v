(** ProofsNotation2.v -- every line can be written in every radix its numbers terminate in. *)
From Verif Require Import Base Position Num TokenTypes Errors Token SyntaxTree Calculate SpecLex SpecCalc SpecCompose SpecNotation ProofsLex2.
From Coq Require Import String QArith Lia ZArith Zwf Qfield.
Local Open Scope nat_scope.
Local Open Scope list_scope.

(** Digits. *)
Definition digit_text (d : N) : char := nth (N.to_nat d) (lit "0123456789abcdef") 48%N.
Definition digit_word (c : char) : Prop := word_char c /\ (c < 128)%N /\ c <> 95%N /\ c <> 47%N /\ ~ space c.
Lemma word_char_ok c : forallb (fun b => negb (N.eqb c b)) [9; 10; 12; 13; 32; 43; 45; 42; 47; 37; 94; 40; 41; 61; 44]%N = true -> word_char c.
Proof.
  intros H. cbn [forallb] in H. repeat (apply andb_prop in H as [?A H]). repeat match goal with A : negb (N.eqb c _) = true |- _ => apply Bool.negb_true_iff, N.eqb_neq in A end.
  split; [intros B; unfold blank in B; cbn in B; intuition congruence|].
  intros (t & B). cbn in B. repeat (destruct B as [B|B]; [injection B as B; intuition congruence|]). exact B.
Qed.
Lemma digit_text_ok d : (d < 16)%N -> has_digit (digit_text d) d /\ digit_word (digit_text d).
Proof.
  intros H. assert (E : In d (map N.of_nat (seq 0 16))).
  { apply in_map_iff. exists (N.to_nat d). split; [apply N2Nat.id|]. apply in_seq. lia. }
  cbn in E. repeat (destruct E as [<-|E]; [split; [left; reflexivity|]; split; [apply word_char_ok; reflexivity|]; split; [reflexivity|]; split; [discriminate|];
    split; [discriminate|unfold space; vm_compute digit_text; lia]|]). destruct E.
Qed.
Lemma digits_text radix ds : (radix <= 16)%N -> Forall (fun d => (d < radix)%N) ds ->
  digits_of radix (map digit_text ds) ds /\ Forall digit_word (map digit_text ds) /\ no_underscores (map digit_text ds) = map digit_text ds.
Proof.
  intros R H. induction H as [|d ds Hd H (A & B & C)]; [split; [constructor|split; [constructor|reflexivity]]|].
  destruct (digit_text_ok d) as (D1 & D2); [lia|]. cbn [map]. split; [constructor; auto|]. split; [constructor; auto|].
  unfold no_underscores in *. cbn [filter]. destruct D2 as (_ & _ & N & _). apply N.eqb_neq in N. rewrite N. cbn. rewrite C. reflexivity.
Qed.

Lemma int_value_snoc radix ds d : int_value radix (ds ++ [d]) = (int_value radix ds * Z.of_N radix + Z.of_N d)%Z.
Proof.
  induction ds as [|e ds IH]; [cbn; lia|]. cbn [app int_value]. rewrite IH, app_length. cbn [List.length].
  rewrite Nat2Z.inj_add, Z.pow_add_r by lia. change (Z.of_nat 1) with 1%Z. rewrite Z.pow_1_r. ring.
Qed.
Lemma int_digits radix : (2 <= radix)%N -> forall n, (0 <= n)%Z -> exists ds, ds <> [] /\ Forall (fun d => (d < radix)%N) ds /\ int_value radix ds = n.
Proof.
  intros R n. induction n as [n IH] using (well_founded_induction_type (Zwf_well_founded 0)). intros H.
  destruct (Z.ltb n (Z.of_N radix)) eqn:E; [apply Z.ltb_lt in E|apply Z.ltb_ge in E].
  - exists [Z.to_N n]. split; [discriminate|]. split; [constructor; [lia|constructor]|]. cbn. lia.
  - destruct (IH (n / Z.of_N radix)%Z) as (ds & N & F & V).
    + split; [lia|]. apply Z.div_lt; lia.
    + apply Z.div_pos; lia.
    + pose proof (Z.mod_pos_bound n (Z.of_N radix)) as B. exists (ds ++ [Z.to_N (n mod Z.of_N radix)]). split; [destruct ds; discriminate|].
      split; [apply Forall_app; split; [exact F|constructor; [lia|constructor]]|]. rewrite int_value_snoc, V, Z2N.id by lia.
      pose proof (Z.div_mod n (Z.of_N radix)). lia.
Qed.
Lemma frac_digits radix : (2 <= radix)%N -> forall k n, (0 <= n < Z.of_N radix ^ Z.of_nat k)%Z ->
  exists ds, Forall (fun d => (d < radix)%N) ds /\ (frac_value radix ds * inject_Z (Z.of_N radix ^ Z.of_nat k) == inject_Z n)%Q.
Proof.
  intros R. assert (NZ : ~ (inject_Z (Z.of_N radix) == 0)%Q) by (change 0%Q with (inject_Z 0); rewrite inject_Z_injective; lia).
  induction k as [|k IH]; intros n H.
  - change (Z.of_N radix ^ Z.of_nat 0)%Z with 1%Z in *. exists []. split; [constructor|]. assert (n = 0)%Z as -> by lia. reflexivity.
  - rewrite Nat2Z.inj_succ, Z.pow_succ_r in H by lia. set (P := (Z.of_N radix ^ Z.of_nat k)%Z) in *. assert (HP : (0 < P)%Z) by (apply Z.pow_pos_nonneg; lia).
    pose proof (Z.mod_pos_bound n P HP) as B. pose proof (Z.div_mod n P ltac:(lia)) as DM. assert (D : (0 <= n / P < Z.of_N radix)%Z).
    { split; [apply Z.div_pos; lia|]. apply Z.div_lt_upper_bound; lia. }
    destruct (IH (n mod P)%Z B) as (ds & F & V). exists (Z.to_N (n / P) :: ds). split; [constructor; [lia|exact F]|].
    rewrite Nat2Z.inj_succ, Z.pow_succ_r by lia. fold P. cbn [frac_value]. rewrite Z2N.id by lia. rewrite inject_Z_mult.
    transitivity (inject_Z (n / P) * inject_Z P + frac_value radix ds * inject_Z P)%Q; [field; exact NZ|]. rewrite V, <- inject_Z_mult, <- inject_Z_plus.
    apply inject_Z_injective. lia.
Qed.

(** A numeral. *)
Lemma no_underscores_app a b : no_underscores (a ++ b) = no_underscores a ++ no_underscores b.
Proof. unfold no_underscores. apply filter_app. Qed.
Lemma numeral_exists radix v : (2 <= radix <= 16)%N -> Qred v = v -> (0 <= v)%Q -> terminates radix v ->
  exists w, w <> [] /\ Forall digit_word w /\ (forall t, ~ In (w, t) keywords) /\ numeral radix w v.
Proof.
  intros R Rv Pos (k & z & E). set (P := (Z.of_N radix ^ Z.of_nat k)%Z) in *. assert (HP : (0 < P)%Z) by (apply Z.pow_pos_nonneg; lia).
  assert (HPq : (0 < inject_Z P)%Q) by (change 0%Q with (inject_Z 0); rewrite <- Zlt_Qlt; exact HP).
  assert (Hz : (0 <= z)%Z). { rewrite Zle_Qle, <- E. change (inject_Z 0) with 0%Q. apply Qmult_le_0_compat; [exact Pos|apply Qlt_le_weak; exact HPq]. }
  destruct (int_digits radix (proj1 R) (z / P)%Z) as (ids & Ni & Fi & Vi); [apply Z.div_pos; lia|].
  destruct (frac_digits radix (proj1 R) k (z mod P)%Z) as (fds & Ff & Vf); [apply Z.mod_pos_bound; exact HP|].
  destruct (digits_text radix ids (proj2 R) Fi) as (Di & Wi & Ui), (digits_text radix fds (proj2 R) Ff) as (Df & Wf & Uf).
  exists (map digit_text ids ++ lit "." ++ map digit_text fds). split; [destruct ids; [destruct (Ni eq_refl)|discriminate]|].
  split. { apply Forall_app. split; [exact Wi|]. apply Forall_app. split; [|exact Wf]. constructor; [|constructor].
    split; [apply word_char_ok; reflexivity|]. split; [reflexivity|]. split; [discriminate|]. split; [discriminate|unfold space; cbn; lia]. }
  split. { intros t K. assert (In 46%N (map digit_text ids ++ lit "." ++ map digit_text fds)) as H by (apply in_app_iff; right; left; reflexivity).
    cbn [keywords In] in K. repeat (destruct K as [K|K]; [apply pair_equal_spec in K as [K _]; rewrite <- K in H; vm_compute in H; intuition discriminate|]). exact K. }
  split; [exact Rv|]. right. exists (map digit_text ids), (map digit_text fds), ids, fds.
  split. { rewrite !no_underscores_app, Ui, Uf. reflexivity. }
  split; [exact Di|]. split; [exact Df|]. split; [destruct ids; [destruct (Ni eq_refl)|discriminate]|].
  fold P in Vf. rewrite Vi. assert (HN : ~ (inject_Z P == 0)%Q) by (intros X; rewrite X in HPq; discriminate HPq).
  apply (Qmult_inj_r _ _ (inject_Z P) HN). rewrite E. rewrite Qmult_plus_distr_l, Vf, <- inject_Z_mult, <- inject_Z_plus. apply inject_Z_injective.
  pose proof (Z.div_mod z P). lia.
Qed.

(** A line. *)
Lemma numeral_nonneg radix w v : (2 <= radix)%N -> numeral radix w v -> (0 <= v)%Q.
Proof.
  intros R (_ & [(ds & _ & _ & ->)|(ip & fp & ids & fds & _ & _ & _ & _ & ->)]).
  - change 0%Q with (inject_Z 0). rewrite <- Zle_Qle. apply ProofsLex.int_value_nonneg.
  - assert (A : (0 <= inject_Z (int_value radix ids))%Q) by (change 0%Q with (inject_Z 0); rewrite <- Zle_Qle; apply ProofsLex.int_value_nonneg).
    assert (B : (0 <= frac_value radix fds)%Q).
    { induction fds as [|d fds IH]; [discriminate|]. cbn [frac_value]. apply Qle_shift_div_l.
      - change 0%Q with (inject_Z 0). rewrite <- Zlt_Qlt. lia.
      - rewrite Qmult_0_l. change 0%Q with (0 + 0)%Q. apply Qplus_le_compat; [|exact IH]. change 0%Q with (inject_Z 0). rewrite <- Zle_Qle. lia. }
    change 0%Q with (0 + 0)%Q. apply Qplus_le_compat; assumption.
Qed.
Definition begins (s : str) (ts : list ptoken) : Prop :=
  match s with [] => True | c :: _ => ~ space c /\ (c = 47%N -> exists p ts', ts = mkPositioned (TBin Divide) p :: ts') end.
Lemma word_again r1 r2 w t : (2 <= r1)%N -> (2 <= r2 <= 16)%N -> w <> [] -> Forall word_char w -> all_ascii w -> word_token r1 w t ->
  (forall v, t = TNumber v -> terminates r2 v) ->
  exists w', w' <> [] /\ Forall word_char w' /\ all_ascii w' /\ word_token r2 w' t /\ match w' with [] => True | c :: _ => ~ space c /\ c <> 47%N end.
Proof.
  intros R1 R2 Nw Fw Aw W T. destruct W as [name|w t K|w v Nk Nv].
  - exists (lit "$" ++ name). split; [exact Nw|]. split; [exact Fw|]. split; [exact Aw|]. split; [constructor|]. cbn. split; [unfold space; lia|discriminate].
  - exists w. split; [exact Nw|]. split; [exact Fw|]. split; [exact Aw|]. split; [constructor; exact K|]. cbn [keywords In] in K.
    repeat (destruct K as [K|K]; [apply pair_equal_spec in K as [<- _]; cbn; split; [unfold space; lia|discriminate]|]). destruct K.
  - destruct (numeral_exists r2 v R2 (proj1 Nv) (numeral_nonneg _ _ _ R1 Nv) (T v eq_refl)) as (w' & A & B & C & D).
    exists w'. split; [exact A|]. split; [eapply Forall_impl; [|exact B]; intros c H; apply H|]. split; [eapply Forall_impl; [|exact B]; intros c H; apply H|].
    split; [constructor; assumption|]. destruct w' as [|c w']; [exact I|]. inversion B as [|? ? (_ & _ & _ & E & F) _]; subst. auto.
Qed.
Lemma reading_again r1 r2 : (2 <= r1)%N -> (2 <= r2 <= 16)%N -> forall o s ts, reading r1 o s ts -> all_ascii s ->
  (forall v p, In (mkPositioned (TNumber v) p) ts -> terminates r2 v) ->
  forall o', exists s' ts', reading r2 o' s' ts' /\ written ts' = written ts /\ all_ascii s' /\ begins s' ts.
Proof.
  intros R1 R2 o s ts H. induction H as [o|o c s ts B H IH|o c t s ts Hin H IH|o w t s ts Nw Fw We Wt H IH]; intros A T o'.
  - exists [], []. split; [constructor|]. split; [reflexivity|]. split; [constructor|exact I].
  - apply IH; [inversion A; assumption|exact T].
  - destruct (IH ltac:(inversion A; assumption) ltac:(intros v p K; apply (T v p); right; exact K) (o' + 1 + 1)) as (s' & ts' & Rd & W & A' & _).
    exists (c :: 32%N :: s'), (mkPositioned t (mkPos o' 1) :: ts'). split; [eapply rd_punct; [exact Hin|]; apply rd_blank; [vm_compute; tauto|exact Rd]|].
    split; [unfold written in *; cbn [map pd_value]; f_equal; exact W|]. split; [constructor; [inversion A; assumption|]; constructor; [reflexivity|exact A']|].
    cbn [punctuation In] in Hin. split.
    + repeat (destruct Hin as [Hin|Hin]; [apply pair_equal_spec in Hin as [Hin _]; injection Hin as <-; unfold space; cbn; lia|]). destruct Hin.
    + intros ->. repeat (destruct Hin as [Hin|Hin]; [apply pair_equal_spec in Hin as [Hin <-]; try discriminate Hin; eauto|]). destruct Hin.
  - assert (Aw : all_ascii w /\ all_ascii s) by (apply Forall_app; exact A).
    destruct (word_again r1 r2 w t R1 R2 Nw Fw (proj1 Aw) Wt) as (w' & Nw' & Fw' & Aw' & Wt' & Bw).
    { intros v ->. eapply T. left. reflexivity. }
    destruct (IH (proj2 Aw) ltac:(intros v p K; apply (T v p); right; exact K) (o' + List.length w' + 1)) as (s' & ts' & Rd & W & A' & _).
    exists (w' ++ 32%N :: s'), (mkPositioned t (mkPos o' (List.length w')) :: ts').
    split. { apply rd_word; auto. - cbn. intros [K _]. apply K. vm_compute. tauto. - apply rd_blank; [vm_compute; tauto|exact Rd]. }
    split; [unfold written in *; cbn [map pd_value]; f_equal; exact W|]. split; [apply Forall_app; split; [exact Aw'|]; constructor; [reflexivity|exact A']|].
    destruct w' as [|c w']; [destruct (Nw' eq_refl)|]. cbn. destruct Bw as [B1 B2]. split; [exact B1|]. intros E. destruct (B2 E).
Qed.
Lemma reading_divide radix o s ts : reading radix o s ts -> forall p ts', ts = mkPositioned (TBin Divide) p :: ts' -> command_line s.
Proof.
  intros H. induction H as [o|o c s ts B H IH|o c t s ts Hin H IH|o w t s ts Nw Fw We Wt H IH]; intros p ts' E; try discriminate E.
  - destruct (IH p ts' E) as (pre & body & -> & F). exists (c :: pre), body. split; [reflexivity|]. constructor; [|exact F].
    unfold blank in B. cbn in B. unfold space. intuition subst; lia.
  - injection E as -> _ _. cbn [punctuation In] in Hin. exists [], s. split; [|constructor].
    repeat (destruct Hin as [Hin|Hin]; [apply pair_equal_spec in Hin as [Hin Ht]; try discriminate Ht; injection Hin as <-; reflexivity|]). destruct Hin.
  - injection E as -> _ _. inversion Wt as [| |]; subst. cbn [keywords In] in H0.
    repeat (destruct H0 as [H0|H0]; [apply pair_equal_spec in H0 as [_ H0]; discriminate H0|]). destruct H0.
Qed.
Lemma line_again r1 r2 line ts : (2 <= r1 <= 16)%N -> (2 <= r2 <= 16)%N -> is_expression r1 line ts ->
  (forall v p, In (mkPositioned (TNumber v) p) ts -> terminates r2 v) ->
  exists line' ts', is_expression r2 line' ts' /\ written ts' = written ts.
Proof.
  intros R1 R2 T H. unfold is_expression in *. apply ProofsLex.tokenize_tokens in T; [|apply ProofsLex.radix_ok_spec; lia]. destruct T as (A & Nc & Rd).
  destruct (reading_again r1 r2 (proj1 R1) R2 _ _ _ Rd A H 0) as (s' & ts' & Rd' & W & A' & B).
  exists s', ts'. split; [|exact W]. apply ProofsLex.tokenize_tokens; [apply ProofsLex.radix_ok_spec; lia|]. split; [exact A'|]. split; [|exact Rd'].
  intros (pre & body & E & F). apply Nc. destruct pre as [|c pre]; subst s'.
  - cbn in B. destruct B as [_ B]. destruct (B eq_refl) as (p & ts'' & ->). eapply reading_divide; [exact Rd|reflexivity].
  - exfalso. cbn in B. inversion F; subst. tauto.
Qed.
