(** ProofsComplaints.v -- improper command lines (C70). *)
From Verif Require Import Base Position Num TokenTypes Errors Token SavedData Variables InputHistory
  SyntaxTree Commands Calculate SpecLex SpecGrammar SpecEval SpecHistory SpecCalc SpecCommands SpecData.
From Verif Require Import ProofsPosition ProofsNum ProofsLex ProofsLex2 ProofsEval ProofsDb ProofsCalc ProofsCalc2 ProofsCalc3 ProofsCalc4 ProofsCalc5 ProofsCalc6
  ProofsCommands ProofsCommands2 ProofsData.
From Coq Require Import String Lia QArith.
Local Open Scope nat_scope.
Local Open Scope list_scope.

(** ** Integer lists *)
Lemma not_int v : Qred v = v -> Qden v <> 1%positive -> forall z, ~ (v == inject_Z z)%Q.
Proof. intros Hq Hd z E. apply Hd. rewrite (canon_int v z Hq E). reflexivity. Qed.
Lemma int_val v z : Qden v = 1%positive -> (v == inject_Z z)%Q -> z = Qnum v.
Proof. intros Hd Ez. rewrite (int_of_canon v Hd) in Ez. unfold Qeq, inject_Z in Ez; simpl in Ez. lia. Qed.

Lemma token_same t : show_token t = token_text t.
Proof. destruct t as [| | |v| | |o|o|f]; try reflexivity. cbn [show_token token_text]. rewrite fraction_same. reflexivity. Qed.
Lemma collect_ints_err pr ts : numbers_ok ts ->
  (forall r text p, collect_ints pr ts None r = Err (mkPositioned text p) <-> int_fault ts text p) /\
  (forall q r text p, collect_ints pr ts (Some q) r = Err (mkPositioned text p) <-> int_fault (mkPositioned (TBin Subtract) q :: ts) text p).
Proof.
  induction ts as [|[tv tp] ts IH]; intros Hn.
  - split.
    + intros r text p. cbn [collect_ints]. split; [discriminate|]. inversion 1.
    + intros q r text p. cbn [collect_ints]. split.
      * intros E. assert (E' : mkPositioned (lit "Found negative sign without value") q = mkPositioned text p) by congruence. injection E' as <- <-. apply if_dangling.
      * inversion 1; subst; try reflexivity; try (exfalso; congruence).
  - destruct IH as (IH1 & IH2). { intros v p H. apply (Hn v p). right; exact H. }
    assert (Other : forall t, (forall v, t <> TNumber v) -> t <> TBin Subtract ->
       forall neg r text p, collect_ints pr (mkPositioned t tp :: ts) neg r = Err (mkPositioned (lit "Expected integer, found " ++ token_text t) tp) /\
        (int_fault (mkPositioned t tp :: ts) text p -> text = lit "Expected integer, found " ++ token_text t /\ p = tp)).
    { intros t Nn Ns neg r text p. split.
      - rewrite <- token_same. cbn [collect_ints pd_value pd_pos]. destruct t as [nm| | |v| | |o|o|f]; try reflexivity; [destruct (Nn v eq_refl)|]. destruct o; try reflexivity. destruct (Ns eq_refl).
      - inversion 1; subst; try (exfalso; eapply Nn; reflexivity); try (exfalso; apply Ns; reflexivity). auto. }
    assert (Neg : forall q text p, tv <> TBin Subtract -> int_fault (mkPositioned (TBin Subtract) q :: mkPositioned tv tp :: ts) text p <-> int_fault (mkPositioned tv tp :: ts) text p).
    { intros q text p Ns. split; [|intros H; apply if_negated; assumption]. inversion 1; subst; try assumption; try (exfalso; congruence). }
    assert (OtherBoth : (forall v, tv <> TNumber v) -> tv <> TBin Subtract ->
      (forall r text p, collect_ints pr (mkPositioned tv tp :: ts) None r = Err (mkPositioned text p) <-> int_fault (mkPositioned tv tp :: ts) text p) /\
      (forall q r text p, collect_ints pr (mkPositioned tv tp :: ts) (Some q) r = Err (mkPositioned text p) <-> int_fault (mkPositioned (TBin Subtract) q :: mkPositioned tv tp :: ts) text p)).
    { intros Nn Ns. assert (X : forall neg r text p, collect_ints pr (mkPositioned tv tp :: ts) neg r = Err (mkPositioned text p) <-> int_fault (mkPositioned tv tp :: ts) text p).
      { intros neg r text p. destruct (Other tv Nn Ns neg r text p) as (E & B). rewrite E. split.
        - intros X. assert (E' : mkPositioned (lit "Expected integer, found " ++ token_text tv) tp = mkPositioned text p) by congruence.
          assert (text = lit "Expected integer, found " ++ token_text tv) as -> by (apply (f_equal pd_value) in E'; symmetry; exact E').
          assert (p = tp) as -> by (apply (f_equal pd_pos) in E'; symmetry; exact E'). apply if_other; assumption.
        - intros F. destruct (B F) as (-> & ->). reflexivity. }
      split; intros; [apply X|]. rewrite Neg by exact Ns. apply X. }
    destruct tv as [nm| | |v| | |o|o|f]; try (apply OtherBoth; intros; discriminate).
    + (* a number *)
      destruct (Hn v tp (or_introl eq_refl)) as [Hv Hq].
      assert (X : forall neg r text p, collect_ints pr (mkPositioned (TNumber v) tp :: ts) neg r = Err (mkPositioned text p) <-> int_fault (mkPositioned (TNumber v) tp :: ts) text p).
      { intros neg r text p. cbn [collect_ints pd_value pd_pos]. destruct (Pos.eqb_spec (Qden v) 1) as [Hd|Hd]; cbn [negb].
        - assert (Hz : (0 <= Qnum v)%Z) by (unfold Qle in Hv; simpl in Hv; lia). rewrite (i64_try_nonneg _ Hz).
          destruct (Z.ltb_spec (Qnum v) (2 ^ 63)) as [Hlt|Hge].
          + assert (Hneg : forall E, @i64_neg E pr (Qnum v) = Ok (- Qnum v)%Z).
            { intros E. unfold i64_neg. destruct (Z.eqb_spec (Qnum v) i64_min) as [X|_]; [|reflexivity]. change i64_min with (-9223372036854775808)%Z in X. lia. }
            rewrite Hneg. cbn [bind]. transitivity (int_fault ts text p).
            { destruct neg; apply IH1. }
            split.
            * intros F. eapply if_next; [apply int_of_canon; exact Hd|lia|exact F].
            * inversion 1 as [? ? ? Nz|? z ? ? Ez Hz2|? z ? ? ? ? Ez Hz2 F| | | |? ? ? Nn]; subst; [exfalso; exact (Nz _ (int_of_canon v Hd))|exfalso; apply (int_val v z Hd) in Ez; lia|exact F|exfalso; exact (Nn v eq_refl)].
          + split.
            * intros E. assert (E' : mkPositioned (lit "Value must be representable as a 64-bit signed integer") tp = mkPositioned text p) by congruence.
              injection E' as <- <-. eapply if_large; [apply int_of_canon; exact Hd|exact Hge].
            * inversion 1 as [? ? ? Nz|? z ? ? Ez Hz2|? z ? ? ? ? Ez Hz2 F| | | |? ? ? Nn]; subst; [exfalso; exact (Nz _ (int_of_canon v Hd))|reflexivity|exfalso; apply (int_val v z Hd) in Ez; lia|exfalso; exact (Nn v eq_refl)].
        - rewrite fraction_same. split.
          + intros E. assert (E' : mkPositioned (lit "Expected an integer, found decimal: " ++ fraction_text v) tp = mkPositioned text p) by congruence.
            assert (text = lit "Expected an integer, found decimal: " ++ fraction_text v) as -> by (apply (f_equal pd_value) in E'; symmetry; exact E').
            assert (p = tp) as -> by (apply (f_equal pd_pos) in E'; symmetry; exact E'). apply if_decimal. apply not_int; assumption.
          + inversion 1 as [? ? ? Nz|? z ? ? Ez Hz2|? z ? ? ? ? Ez Hz2 F| | | |? ? ? Nn]; subst;
              [reflexivity|exfalso; exact (not_int v Hq Hd _ Ez)|exfalso; exact (not_int v Hq Hd _ Ez)|exfalso; exact (Nn v eq_refl)]. }
      split; intros; [apply X|]. rewrite Neg by discriminate. apply X.
    + destruct o; try (apply OtherBoth; intros; discriminate).
      split.
      * intros r text p. cbn [collect_ints pd_value pd_pos]. apply IH2.
      * intros q r text p. cbn [collect_ints pd_value pd_pos]. split.
        -- intros E. assert (E' : mkPositioned (lit "Two negative signs in a row") (from_span q tp) = mkPositioned text p) by congruence.
           assert (text = lit "Two negative signs in a row") as -> by (apply (f_equal pd_value) in E'; symmetry; exact E').
           assert (p = from_span q tp) as -> by (apply (f_equal pd_pos) in E'; symmetry; exact E'). apply if_two.
        -- inversion 1; subst; try (exfalso; congruence). reflexivity.
Qed.

Lemma lexical_iff s text p : lexical_complaint s text p <-> exists e, tokenize s 10 = Err e /\ list_lex_error e = mkPositioned text p.
Proof.
  split.
  - intros [pre c post Es Ha Hc|w i Ha Hc B].
    + eexists. split; [apply (tokenize_error s 10 _ eq_refl); left; exists pre, c, post; auto|]. reflexivity.
    + eexists. split; [apply (tokenize_error s 10 _ eq_refl); right; split; [exact Ha|]; split; [exact Hc|]; exists w, i; auto|]. reflexivity.
  - intros (e & T & E). apply (tokenize_error s 10 e eq_refl) in T as [(pre & c & post & Es & Ha & Hc & ->)|(Ha & Hc & w & i & B & ->)].
    + cbn [list_lex_error pd_value pd_pos] in E.
      assert (text = show_parse_error NonAscii) as -> by (apply (f_equal pd_value) in E; symmetry; exact E).
      assert (p = mkPos (List.length pre) 1) as -> by (apply (f_equal pd_pos) in E; symmetry; exact E). eapply lc_non_ascii; eassumption.
    + cbn [list_lex_error pd_value pd_pos] in E.
      assert (text = show_parse_error (InvalidVariable w)) as -> by (apply (f_equal pd_value) in E; symmetry; exact E).
      assert (p = mkPos i (List.length w)) as -> by (apply (f_equal pd_pos) in E; symmetry; exact E). apply lc_word; assumption.
Qed.
Lemma int_complaint_iff pr s text p : int_complaint s text p <-> tokenize_int_list pr s 10 = Err (mkPositioned text p).
Proof.
  unfold tokenize_int_list. split.
  - intros [t q L|n rest Ha Hc|ts t q Ha Hc R F].
    + apply lexical_iff in L as (e & -> & ->). reflexivity.
    + rewrite (proj2 (tokenize_command s 10 n rest) (conj Ha Hc)). reflexivity.
    + rewrite (proj2 (tokenize_tokens s 10 ts eq_refl) (conj Ha (conj Hc R))). apply collect_ints_err; [|exact F]. intros v x. eapply reading_numbers; eauto.
  - destruct (tokenize s 10) as [[ts|n rest]|e|q] eqn:T; intros E.
    + apply (tokenize_tokens s 10 ts eq_refl) in T as (Ha & Hc & R). apply (ic_tokens s ts); try assumption.
      apply (collect_ints_err pr ts) in E; [exact E|]. intros v x. eapply reading_numbers; eauto.
    + apply tokenize_command in T as (Ha & Hc). assert (E' : mkPositioned (show_parse_error (InvalidNumber (c_slash :: pd_value n))) (pd_pos n) = mkPositioned text p) by congruence.
      assert (text = show_parse_error (InvalidNumber (c_slash :: pd_value n))) as -> by (apply (f_equal pd_value) in E'; symmetry; exact E').
      assert (p = pd_pos n) as -> by (apply (f_equal pd_pos) in E'; symmetry; exact E'). eapply ic_slash; eassumption.
    + apply ic_lexical. apply lexical_iff. exists e. split; [exact T|congruence].
    + discriminate.
Qed.
Lemma collect_variables_err ts : forall r text p, collect_variables ts r = Err (mkPositioned text p) <->
  exists names t rest, ts = names ++ mkPositioned t p :: rest /\ (forall n, In n names -> exists y, pd_value n = TVariable y) /\ (forall y, t <> TVariable y) /\
    text = lit "Expected variable, found " ++ token_text t.
Proof.
  induction ts as [|[tv tp] ts IH]; intros r text p.
  - cbn [collect_variables]. split; [discriminate|]. intros (names & t & rest & E & _). destruct names; discriminate.
  - assert (Other : (forall y, tv <> TVariable y) -> collect_variables (mkPositioned tv tp :: ts) r = Err (mkPositioned text p) <->
      exists names t rest, mkPositioned tv tp :: ts = names ++ mkPositioned t p :: rest /\ (forall n, In n names -> exists y, pd_value n = TVariable y) /\ (forall y, t <> TVariable y) /\
        text = lit "Expected variable, found " ++ token_text t).
    { intros Nv. assert (E : collect_variables (mkPositioned tv tp :: ts) r = Err (mkPositioned (lit "Expected variable, found " ++ token_text tv) tp)).
      { rewrite <- token_same. cbn [collect_variables pd_value pd_pos]. destruct tv; try reflexivity. destruct (Nv name eq_refl). }
      rewrite E. split.
      - intros X. assert (E' : mkPositioned (lit "Expected variable, found " ++ token_text tv) tp = mkPositioned text p) by congruence.
        assert (text = lit "Expected variable, found " ++ token_text tv) as -> by (apply (f_equal pd_value) in E'; symmetry; exact E').
        assert (p = tp) as -> by (apply (f_equal pd_pos) in E'; symmetry; exact E'). exists [], tv, ts. split; [reflexivity|]. split; [intros n []|]. auto.
      - intros (names & t & rest & Es & Hn & Ht & ->). destruct names as [|n names].
        + cbn [app] in Es. injection Es as -> -> ->. reflexivity.
        + injection Es as <- _. destruct (Hn _ (or_introl eq_refl)) as (y & Hy). destruct (Nv y Hy). }
    destruct tv as [nm| | |v| | |o|o|f]; try (apply Other; intros; discriminate). clear Other.
    cbn [collect_variables pd_value pd_pos]. rewrite IH. split.
    + intros (names & t & rest & -> & Hn & Ht & ->). exists (mkPositioned (TVariable nm) tp :: names), t, rest. split; [reflexivity|]. split; [|auto].
      intros n [<-|Hi]; [exists nm; reflexivity|auto].
    + intros (names & t & rest & Es & Hn & Ht & ->). destruct names as [|n names].
      * cbn [app] in Es. injection Es as E1 E2 E3. destruct (Ht nm (eq_sym E1)).
      * injection Es as <- ->. exists names, t, rest. split; [reflexivity|]. split; [|auto]. intros n Hi. apply Hn. right; exact Hi.
Qed.
Lemma variable_complaint_iff s text p : variable_complaint s text p <-> tokenize_variable_list s = Err (mkPositioned text p).
Proof.
  unfold tokenize_variable_list. split.
  - intros [t q L|n rest Ha Hc|ts names t q rest Ha Hc R E Hn Ht].
    + apply lexical_iff in L as (e & -> & ->). reflexivity.
    + rewrite (proj2 (tokenize_command s 10 n rest) (conj Ha Hc)). reflexivity.
    + rewrite (proj2 (tokenize_tokens s 10 ts eq_refl) (conj Ha (conj Hc R))). apply collect_variables_err. exists names, t, rest. auto.
  - destruct (tokenize s 10) as [[ts|n rest]|e|q] eqn:T; intros E.
    + apply (tokenize_tokens s 10 ts eq_refl) in T as (Ha & Hc & R). apply collect_variables_err in E as (names & t & rest & Es & Hn & Ht & ->).
      eapply vc_token; eassumption.
    + apply tokenize_command in T as (Ha & Hc). assert (E' : mkPositioned (show_parse_error (InvalidVariable (c_slash :: pd_value n))) (pd_pos n) = mkPositioned text p) by congruence.
      assert (text = show_parse_error (InvalidVariable (c_slash :: pd_value n))) as -> by (apply (f_equal pd_value) in E'; symmetry; exact E').
      assert (p = pd_pos n) as -> by (apply (f_equal pd_pos) in E'; symmetry; exact E'). eapply vc_slash; eassumption.
    + apply vc_lexical. apply lexical_iff. exists e. split; [exact T|congruence].
    + discriminate.
Qed.
Lemma integers_at_iff pr s l : integers_at s l <-> tokenize_int_list pr s 10 = Ok l.
Proof. symmetry. apply (tokenize_int_list_spec pr s 10 eq_refl). Qed.

(** ** Complaints and runs *)
Lemma in_names name c : resolve_in name = Some c -> In name all_names.
Proof.
  intros R. apply name_cases in R. destruct c; cbn [command_name command_aliases In] in R; unfold all_names; cbn [map In]; intuition.
Qed.
Lemma names_in name : In name all_names -> exists c, resolve_in name = Some c.
Proof.
  intros Hin. unfold all_names in Hin. cbn [map In] in Hin. repeat (destruct Hin as [Hin|Hin]; [rewrite <- Hin; eexists; vm_compute; reflexivity|]). destruct Hin.
Qed.
Ltac called_cases H :=
  unfold called in H; cbn [map In] in H; repeat (destruct H as [H|H]; [symmetry in H|]); [..|destruct H].
Lemma trimmed_unique x y z : trimmed x y -> trimmed x z -> pd_value y <> [] -> y = z.
Proof.
  assert (K : forall a b u v s t, a ++ u ++ s = b ++ v ++ t -> Forall blank a -> Forall blank b ->
     (forall c rest, u = c :: rest -> ~ blank c) -> (forall c rest, v = c :: rest -> ~ blank c) ->
     Forall blank s -> Forall blank t -> u <> [] -> a = b).
  { induction a as [|c a IH]; intros b u v s t E Ha Hb Hu Hv Hs Ht Nu.
    - destruct b as [|d b]; [reflexivity|]. destruct u as [|e u]; [destruct (Nu eq_refl)|]. cbn [app] in E. injection E as -> _. specialize (Hu _ _ eq_refl).
      apply Forall_inv in Hb. contradiction.
    - destruct b as [|d b].
      + destruct v as [|e v].
        * cbn [app] in E. exfalso. destruct u as [|f u]; [destruct (Nu eq_refl)|]. specialize (Hu _ _ eq_refl). rewrite <- E in Ht. apply Forall_inv_tail in Ht. cbn [app] in Ht. apply Forall_app in Ht as [_ Ht]. apply Forall_inv in Ht. contradiction.
        * cbn [app] in E. injection E as -> _. specialize (Hv _ _ eq_refl). apply Forall_inv in Ha. contradiction.
      + cbn [app] in E. injection E as -> E. f_equal. apply (IH b u v s t E); try assumption; [apply Forall_inv_tail in Ha|apply Forall_inv_tail in Hb]; assumption. }
  intros (a & s & E1 & W1 & H1 & L1 & P1 & _ & D1) (b & t & E2 & W2 & H2 & L2 & P2 & Q2 & D2) Ny.
  apply Forall_app in W1 as [Wa Ws], W2 as [Wb Wt]. rewrite E1 in E2.
  pose proof (K _ _ _ _ _ _ E2 Wa Wb H1 H2 Ws Wt Ny) as ->. apply app_inv_head in E2.
  assert (Nz : pd_value z <> []).
  { intros Z. rewrite Z in E2. cbn [app] in E2. destruct (pd_value y) as [|c w]; [destruct (Ny eq_refl)|]. specialize (H1 _ _ eq_refl). rewrite <- E2 in Wt. apply Forall_inv in Wt. contradiction. }
  assert (Ev : pd_value y = pd_value z).
  { apply (f_equal (@rev N)) in E2. rewrite !rev_app_distr in E2. apply (f_equal (@rev N)) in E2.
    assert (X : rev s = rev t).
    { apply (K (rev s) (rev t) (rev (pd_value y)) (rev (pd_value z)) [] []).
      - rewrite !app_nil_r. apply (f_equal (@rev N)) in E2. rewrite !rev_involutive in E2. exact E2.
      - apply Forall_rev; exact Ws.
      - apply Forall_rev; exact Wt.
      - intros c r X. apply (L1 c (rev r)). rewrite <- (rev_involutive (pd_value y)), X. reflexivity.
      - intros c r X. apply (L2 c (rev r)). rewrite <- (rev_involutive (pd_value z)), X. reflexivity.
      - constructor.
      - constructor.
      - intros X. apply Ny. rewrite <- (rev_involutive (pd_value y)), X. reflexivity. }
    rewrite X in E2. apply (f_equal (@rev N)) in E2. rewrite !rev_involutive in E2. apply app_inv_head in E2. rewrite <- (rev_involutive (pd_value y)), E2. apply rev_involutive. }
  destruct y as [yv [ys yw]], z as [zv [zs zw]]. cbn [pd_value pd_pos p_start p_width] in *. subst zv. rewrite (P1 Ny), (P2 Ny), D1, D2. reflexivity.
Qed.

Lemma complaint_run pr ord a name arguments text p s : command_complaint a name arguments text p ->
  execute_command pr ord the_executor name arguments a s = (a, s, Err (input_error text p)).
Proof.
  assert (RD : forall c, resolve_in (pd_value name) = Some c ->
     execute_command pr ord the_executor name arguments a s = run_command pr ord the_executor c arguments a s).
  { intros c R. unfold execute_command. fold (resolve_in (pd_value name)). rewrite R. reflexivity. }
  assert (Last : forall (y x : positioned Z) l, last (l ++ [y]) x = y) by (intros; apply last_last).
  assert (NN : forall l, integers_at (pd_value arguments) l -> str_eqb (word_of (pd_value arguments)) (lit "none") = false).
  { intros l I. destruct (str_eqb _ _) eqn:X; [|reflexivity]. exfalso. apply str_eqb_spec in X. apply says_iff in X; [|repeat constructor; discriminate].
    apply (none_not_integers _ (map pd_value l) X). destruct I as (A & B & ts & C & D). split; [exact A|]. split; [exact B|]. eauto. }
  intros [Nu|topic Hc Tr Nt Na|Hc Na Nb|text0 p0 Hc Hn Ic|x y l Hc I|z Hc I Hz|z Hc I Hz|z Hc I Hz|z l Hc I Hl Hz|z y Hc I Hz Hy|z Hc I Hz Hs|z y Hc I Hz Hy Hs|x x' y l Hc I|text0 p0 Hc V].
  - unfold execute_command. fold (resolve_in (pd_value name)). rewrite (unknown_command _ Nu). reflexivity.
  - assert (R : resolve_in (pd_value name) = Some CHelp) by (called_cases Hc; rewrite Hc; vm_compute; reflexivity).
    rewrite (RD _ R). cbn [run_command]. unfold exec_help. destruct (ptrim_trimmed (E := failure) arguments) as (y & Ey & Ty). rewrite Ey.
    rewrite <- (trimmed_unique _ _ _ Tr Ty Nt). destruct (pd_value topic) as [|c w] eqn:Et; [destruct (Nt eq_refl)|]. rewrite <- Et in *.
    fold (resolve_in (pd_value topic)). rewrite (unknown_command _ Na). reflexivity.
  - assert (X : forall get set, exec_bool_setting get set arguments a s = (a, s, Err (input_error (lit "Invalid argument") (pd_pos arguments)))).
    { intros get set. rewrite no_argument_iff in Na. unfold exec_bool_setting. cbv zeta. fold (word_of (pd_value arguments)).
      destruct (word_of (pd_value arguments)) as [|c w] eqn:W; [destruct (Na eq_refl)|].
      assert (B : forall b u, u = (if b : bool then lit "true" else lit "false") \/ u = (if b then lit "t" else lit "f") -> str_eqb (c :: w) u = false).
      { intros b u Hu. destruct (str_eqb (c :: w) u) eqn:X; [|reflexivity]. exfalso. apply str_eqb_spec in X. apply (Nb b). apply bool_iff. rewrite W, X. exact Hu. }
      rewrite (B false (lit "f") (or_intror eq_refl)), (B false (lit "false") (or_introl eq_refl)), (B true (lit "t") (or_intror eq_refl)), (B true (lit "true") (or_introl eq_refl)). reflexivity. }
    called_cases Hc; (rewrite (RD _ ltac:(rewrite Hc; vm_compute; reflexivity)); cbn [run_command]; apply X).
  - apply (int_complaint_iff pr) in Ic.
    called_cases Hc; (rewrite (RD _ ltac:(rewrite Hc; vm_compute; reflexivity)); cbn [run_command]);
      unfold exec_radix, exec_converttoradix, parse_radix_arg, exec_precision, exec_histcap; rewrite Ic; try reflexivity.
    fold (word_of (pd_value arguments)). destruct (str_eqb (word_of (pd_value arguments)) (lit "none")) eqn:X; [|reflexivity]. exfalso. apply (Hn Hc). apply str_eqb_spec in X.
    apply says_iff; [repeat constructor; discriminate|exact X].
  - pose proof (NN _ I) as Nn. apply (integers_at_iff pr) in I.
    called_cases Hc; (rewrite (RD _ ltac:(rewrite Hc; vm_compute; reflexivity)); cbn [run_command]);
      unfold exec_radix, exec_converttoradix, parse_radix_arg, exec_histcap; fold (word_of (pd_value arguments)); rewrite ?Nn, I;
      (destruct (l ++ [y]) as [|k l'] eqn:El; [destruct l; discriminate El|]); rewrite <- El; unfold too_many; rewrite Last; reflexivity.
  - pose proof (NN _ I) as Nn. apply (integers_at_iff pr) in I. assert (L : Z.ltb (pd_value z) 2 = true) by (apply Z.ltb_lt; exact Hz).
    called_cases Hc; (rewrite (RD _ ltac:(rewrite Hc; vm_compute; reflexivity)); cbn [run_command]);
      unfold exec_radix, exec_converttoradix, parse_radix_arg; fold (word_of (pd_value arguments)); rewrite ?Nn, I, L; reflexivity.
  - pose proof (NN _ I) as Nn. apply (integers_at_iff pr) in I. assert (L : Z.ltb (pd_value z) 2 = false) by (apply Z.ltb_ge; lia).
    assert (L' : Z.ltb 16 (pd_value z) = true) by (apply Z.ltb_lt; exact Hz).
    called_cases Hc; (rewrite (RD _ ltac:(rewrite Hc; vm_compute; reflexivity)); cbn [run_command]);
      unfold exec_radix, exec_converttoradix, parse_radix_arg; fold (word_of (pd_value arguments)); rewrite ?Nn, I, L, L'; reflexivity.
  - apply (integers_at_iff pr) in I. assert (L : Z.ltb (pd_value z) 1 = true) by (apply Z.ltb_lt; exact Hz).
    called_cases Hc; (rewrite (RD _ ltac:(rewrite Hc; vm_compute; reflexivity)); cbn [run_command]).
    unfold exec_histcap. rewrite I. unfold validate_max_history_size. rewrite L. reflexivity.
  - apply (integers_at_iff pr) in I. destruct (u8_cases (pd_value z)) as [(n & U & Ez & Hn & Hz')|(U & Nz)]; [destruct (Hz Hz')|].
    called_cases Hc; (rewrite (RD _ ltac:(rewrite Hc; vm_compute; reflexivity)); cbn [run_command]);
      unfold exec_precision; cbv zeta; rewrite I; (destruct l as [|y [|k l]]; [| |cbn [List.length] in Hl; lia]); unfold check_precision; rewrite U; reflexivity.
  - apply (integers_at_iff pr) in I. destruct (u8_cases (pd_value z)) as [(n & U & Ez & Hn & Hz')|(U & Nz)]; [|destruct (Nz Hz)].
    destruct (u8_cases (pd_value y)) as [(n2 & U2 & Ez2 & Hn2 & Hz2)|(U2 & Nz2)]; [destruct (Hy Hz2)|].
    called_cases Hc; (rewrite (RD _ ltac:(rewrite Hc; vm_compute; reflexivity)); cbn [run_command]);
      unfold exec_precision; cbv zeta; rewrite I; unfold check_precision; rewrite U, U2; reflexivity.
  - apply (integers_at_iff pr) in I. destruct (u8_cases (pd_value z)) as [(n & U & Ez & Hn & Hz')|(U & Nz)]; [|destruct (Nz Hz)].
    assert (L : N.ltb (n + a_extra_precision a) 256 = false) by (apply N.ltb_ge; lia).
    called_cases Hc; (rewrite (RD _ ltac:(rewrite Hc; vm_compute; reflexivity)); cbn [run_command]);
      unfold exec_precision; cbv zeta; rewrite I; unfold check_precision; rewrite U; cbn [bind]; rewrite L; reflexivity.
  - apply (integers_at_iff pr) in I. destruct (u8_cases (pd_value z)) as [(n & U & Ez & Hn & Hz')|(U & Nz)]; [|destruct (Nz Hz)].
    destruct (u8_cases (pd_value y)) as [(n2 & U2 & Ez2 & Hn2 & Hz2)|(U2 & Nz2)]; [|destruct (Nz2 Hy)].
    assert (L : N.ltb (n + n2) 256 = false) by (apply N.ltb_ge; lia).
    called_cases Hc; (rewrite (RD _ ltac:(rewrite Hc; vm_compute; reflexivity)); cbn [run_command]);
      unfold exec_precision; cbv zeta; rewrite I; unfold check_precision; rewrite U, U2; cbn [bind]; rewrite L; reflexivity.
  - apply (integers_at_iff pr) in I.
    called_cases Hc; (rewrite (RD _ ltac:(rewrite Hc; vm_compute; reflexivity)); cbn [run_command]);
      unfold exec_precision; cbv zeta; rewrite I; (destruct (l ++ [y]) as [|k l'] eqn:El; [destruct l; discriminate El|]); rewrite <- El; unfold too_many;
      change (x' :: l ++ [y]) with ((x' :: l) ++ [y]); rewrite Last; reflexivity.
  - apply variable_complaint_iff in V.
    called_cases Hc; (rewrite (RD _ ltac:(rewrite Hc; vm_compute; reflexivity)); cbn [run_command]);
      unfold exec_purgevar, exec_reloadvar; rewrite V; reflexivity.
Qed.

Lemma last_snoc {A} (k : A) l : exists l' y, k :: l = l' ++ [y] /\ forall x, last (k :: l) x = y.
Proof.
  destruct (exists_last (l := k :: l)) as (l' & y & E); [discriminate|]. exists l', y. split; [exact E|]. intros x. rewrite E. apply last_last.
Qed.
Lemma input_error_inj t p t' p' : input_error t p = InputError (mkMP t' (Some p')) -> t = t' /\ p = p'.
Proof.
  unfold input_error. intros E. assert (E' : mkMP t (Some p) = mkMP t' (Some p')) by congruence. split.
  - exact (f_equal mp_value E').
  - apply (f_equal mp_pos) in E'. cbn [mp_pos] in E'. congruence.
Qed.
Lemma cmd_err_inj (a a' : args) (s s' : env) (e e' : failure) : (a, s, Err e) = ((a', s', Err e') : cmd_result) -> e = e'.
Proof. intros E. apply pair_equal_spec in E as [_ E]. congruence. Qed.
Lemma cmd_ok_err (a a' : args) (s s' : env) m (e' : failure) : (a, s, Ok m) = ((a', s', Err e') : cmd_result) -> False.
Proof. intros E. apply pair_equal_spec in E as [_ E]. discriminate. Qed.

Lemma run_complaint pr ord a name arguments text p s a' s' :
  execute_command pr ord the_executor name arguments a s = (a', s', Err (InputError (mkMP text (Some p)))) ->
  command_complaint a name arguments text p.
Proof.
  assert (OkE : forall a0 s0 m, (a0, s0, Ok m) = ((a', s', Err (InputError (mkMP text (Some p)))) : cmd_result) -> command_complaint a name arguments text p).
  { intros a0 s0 m E. destruct (cmd_ok_err _ _ _ _ _ _ E). }
  assert (ErE : forall t q, command_complaint a name arguments t q -> (a, s, Err (input_error t q)) = ((a', s', Err (InputError (mkMP text (Some p)))) : cmd_result) -> command_complaint a name arguments text p).
  { intros t q H E. apply cmd_err_inj, input_error_inj in E as (<- & <-). exact H. }
  unfold execute_command. fold (resolve_in (pd_value name)). destruct (resolve_in (pd_value name)) as [c|] eqn:R.
  2:{ apply ErE. apply cc_unknown. intros H. destruct (names_in _ H) as (c & E). congruence. }
  assert (CN : forall l, (forall x, In x (command_name c :: command_aliases c) -> In x (map lit l)) -> called (pd_value name) l).
  { intros l H. apply H. apply name_cases. exact R. }
  assert (BS : c = CFractional \/ c = CUpper \/ c = CCommas -> forall get set,
     exec_bool_setting get set arguments a s = (a', s', Err (InputError (mkMP text (Some p)))) -> command_complaint a name arguments text p).
  { intros Hc get set. destruct (bool_setting_cases get set arguments a s) as [(W & X)|[(b & Sb & W & X)|(W & Nb & m & X)]].
    - rewrite X. intros E. destruct (cmd_ok_err _ _ _ _ _ _ E).
    - rewrite X. intros E. destruct (cmd_ok_err _ _ _ _ _ _ E).
    - assert (Cc : command_complaint a name arguments (lit "Invalid argument") (pd_pos arguments)).
      { apply cc_bool; [|intros Na; apply W; apply no_argument_iff; exact Na|exact Nb]. apply CN. intros x. destruct Hc as [-> |[-> | ->]]; cbn [command_name command_aliases map In]; intuition. }
      unfold exec_bool_setting. cbv zeta. fold (word_of (pd_value arguments)). destruct (word_of (pd_value arguments)) as [|k w]; [destruct (W eq_refl)|].
      destruct (_ || _); [intros E; destruct (cmd_ok_err _ _ _ _ _ _ E)|]. destruct (_ || _); [intros E; destruct (cmd_ok_err _ _ _ _ _ _ E)|]. apply ErE. exact Cc. }
  assert (RA : c = CRadix \/ c = CConvertToRadix -> (pd_value name = lit "converttoradix" -> ~ says (pd_value arguments) (lit "none")) ->
     parse_radix_arg pr arguments = Err (InputError (mkMP text (Some p))) -> command_complaint a name arguments text p).
  { intros Hc Hn. assert (Cr : called (pd_value name) ["radix"; "r"; "converttoradix"]%string) by (apply CN; intros x; destruct Hc as [-> | ->]; cbn [command_name command_aliases map In]; intuition).
    assert (X : forall t q, command_complaint a name arguments t q -> Err (input_error t q) = (Err (InputError (mkMP text (Some p))) : outcome failure (option N)) -> command_complaint a name arguments text p).
    { intros t q H E. assert (E' : input_error t q = InputError (mkMP text (Some p))) by congruence. apply input_error_inj in E' as (<- & <-). exact H. }
    unfold parse_radix_arg. destruct (tokenize_int_list pr (pd_value arguments) 10) as [[|i [|j l]]|e|q] eqn:T; [discriminate| | | |discriminate].
    - pose proof (proj2 (integers_at_iff pr _ _) T) as I. destruct (Z.ltb (pd_value i) 2) eqn:A; [|destruct (Z.ltb 16 (pd_value i)) eqn:B; [|discriminate]].
      + apply X. apply cc_radix_small; [exact Cr|exact I|apply Z.ltb_lt; exact A].
      + apply X. apply cc_radix_large; [exact Cr|exact I|apply Z.ltb_lt; exact B].
    - pose proof (proj2 (integers_at_iff pr _ _) T) as I. apply X. unfold too_many. destruct (last_snoc j l) as (l' & y & El & L). rewrite L.
      rewrite El in I. apply (cc_many a name arguments i y l'); [|exact I]. called_cases Cr; rewrite Cr; unfold called; cbn [map In]; intuition.
    - destruct e as [t q]. apply X. apply cc_integers; [|exact Hn|apply (int_complaint_iff pr); exact T].
      called_cases Cr; rewrite Cr; unfold called; cbn [map In]; intuition. }
  assert (Nsay : c <> CConvertToRadix -> pd_value name = lit "converttoradix" -> ~ says (pd_value arguments) (lit "none")).
  { intros Nc En. exfalso. rewrite En in R. vm_compute in R. injection R as <-. apply Nc. reflexivity. }
  destruct c; cbn [run_command].
  - (* help *)
    unfold exec_help. destruct (ptrim_trimmed (E := failure) arguments) as (y & Ey & Ty). rewrite Ey.
    destruct (pd_value y) as [|k w] eqn:Et; [apply OkE|]. rewrite <- Et. fold (resolve_in (pd_value y)). destruct (resolve_in (pd_value y)) as [c|] eqn:Rc; [apply OkE|].
    apply ErE. apply (cc_topic a name arguments y); [apply CN; cbn [command_name command_aliases map In]; intuition|exact Ty|rewrite Et; discriminate|].
    intros H. destruct (names_in _ H) as (c & E). congruence.
  - unfold exec_reloadvar. destruct (tokenize_variable_list (pd_value arguments)) as [l|[t q]|q] eqn:T.
    + destruct (e_db s) as [d|]; [|intros E; apply cmd_err_inj in E; discriminate]. destruct (e_vars s) as [m|]; [|intros E; apply cmd_err_inj in E; discriminate].
      destruct (reload_loop _ _ _ _ _) as [[m' d'] o]. intros E. apply pair_equal_spec in E as [_ E]. destruct o; unfold lift_rt, map_err in E; discriminate E.
    + apply ErE. apply cc_variables; [apply CN; cbn [command_name command_aliases map In]; intuition|apply variable_complaint_iff; exact T].
    + intros E. apply pair_equal_spec in E as [_ E]. discriminate E.
  - unfold exec_purgevar. destruct (tokenize_variable_list (pd_value arguments)) as [l|[t q]|q] eqn:T.
    + destruct (e_vars s) as [m|]; [|intros E; apply cmd_err_inj in E; discriminate].
      destruct (purge_loop _ _ _) as [[m' d'] o]. intros E. apply pair_equal_spec in E as [_ E]. destruct o; discriminate E.
    + apply ErE. apply cc_variables; [apply CN; cbn [command_name command_aliases map In]; intuition|apply variable_complaint_iff; exact T].
    + intros E. apply pair_equal_spec in E as [_ E]. discriminate E.
  - unfold exec_histcap. destruct (tokenize_int_list pr (pd_value arguments) 10) as [[|i [|j l]]|[t q]|q] eqn:T.
    + destruct (e_db s) as [d|]; [|intros E; apply cmd_err_inj in E; discriminate]. destruct (get_max_history_size d) as [d' o]. intros E. apply pair_equal_spec in E as [_ E]. destruct o; discriminate E.
    + pose proof (proj2 (integers_at_iff pr _ _) T) as I. unfold validate_max_history_size. destruct (Z.ltb (pd_value i) 1) eqn:A.
      * apply ErE. apply cc_capacity; [apply CN; cbn [command_name command_aliases map In]; intuition|exact I|apply Z.ltb_lt; exact A].
      * destruct (e_db s) as [d|]; [|intros E; apply cmd_err_inj in E; discriminate]. destruct (set_max_history_size _ d) as [d' o]. intros E. apply pair_equal_spec in E as [_ E]. destruct o; discriminate E.
    + pose proof (proj2 (integers_at_iff pr _ _) T) as I. unfold too_many. destruct (last_snoc j l) as (l' & y & El & L). rewrite L. rewrite El in I. apply ErE.
      apply (cc_many a name arguments i y l'); [apply CN; cbn [command_name command_aliases map In]; intuition|exact I].
    + apply ErE. apply cc_integers; [apply CN; cbn [command_name command_aliases map In]; intuition|apply Nsay; discriminate|apply (int_complaint_iff pr); exact T].
    + intros E. apply pair_equal_spec in E as [_ E]. discriminate E.
  - apply BS; auto.
  - unfold exec_radix. destruct (parse_radix_arg pr arguments) as [[v|]|e|q] eqn:P; [apply OkE|apply OkE| |].
    + intros E. apply cmd_err_inj in E. subst e. apply RA; [auto|apply Nsay; discriminate|reflexivity].
    + intros E. apply pair_equal_spec in E as [_ E]. discriminate E.
  - unfold exec_converttoradix. fold (word_of (pd_value arguments)). destruct (str_eqb (word_of (pd_value arguments)) (lit "none")) eqn:X; [apply OkE|].
    destruct (parse_radix_arg pr arguments) as [[v|]|e|q] eqn:P; [apply OkE|apply OkE| |].
    + intros E. apply cmd_err_inj in E. subst e. apply RA; [auto| |reflexivity]. intros _ Sy. apply says_iff in Sy; [|repeat constructor; discriminate].
      rewrite Sy, (proj2 (str_eqb_spec _ _) eq_refl) in X. discriminate X.
    + intros E. apply pair_equal_spec in E as [_ E]. discriminate E.
  - apply BS; auto.
  - apply BS; auto.
  - assert (Cp : called (pd_value name) ["precision"; "p"]%string) by (apply CN; cbn [command_name command_aliases map In]; intuition).
    unfold exec_precision. cbv zeta. destruct (tokenize_int_list pr (pd_value arguments) 10) as [[|i [|j [|k l]]]|[t q]|q] eqn:T.
    + apply OkE.
    + pose proof (proj2 (integers_at_iff pr _ _) T) as I. unfold check_precision.
      destruct (u8_cases (pd_value i)) as [(n & U & Ez & Hn & Hz)|(U & Nz)]; rewrite U; cbn [bind].
      * destruct (N.ltb (n + a_extra_precision a) 256) eqn:L; [apply OkE|]. apply ErE. apply N.ltb_ge in L. apply cc_sum_one; [exact Cp|exact I|exact Hz|lia].
      * apply ErE. apply (cc_precision a name arguments i []); [exact Cp|exact I|cbn [List.length]; lia|exact Nz].
    + pose proof (proj2 (integers_at_iff pr _ _) T) as I. unfold check_precision.
      destruct (u8_cases (pd_value i)) as [(n & U & Ez & Hn & Hz)|(U & Nz)]; rewrite U; cbn [bind].
      * destruct (u8_cases (pd_value j)) as [(n2 & U2 & Ez2 & Hn2 & Hz2)|(U2 & Nz2)]; rewrite U2; cbn [bind].
        -- destruct (N.ltb (n + n2) 256) eqn:L; [apply OkE|]. apply ErE. apply N.ltb_ge in L. apply cc_sum_two; [exact Cp|exact I|exact Hz|exact Hz2|lia].
        -- apply ErE. apply (cc_extra a name arguments i j); assumption.
      * apply ErE. apply (cc_precision a name arguments i [j]); [exact Cp|exact I|cbn [List.length]; lia|exact Nz].
    + pose proof (proj2 (integers_at_iff pr _ _) T) as I. unfold too_many. destruct (last_snoc k l) as (l' & y & El & L).
      change (last (j :: k :: l) i) with (last (k :: l) i). rewrite L. rewrite El in I. apply ErE. eapply cc_many_precisions; [exact Cp|exact I].
    + apply ErE. apply cc_integers; [|apply Nsay; discriminate|apply (int_complaint_iff pr); exact T]. called_cases Cp; rewrite Cp; unfold called; cbn [map In]; intuition.
    + intros E. apply pair_equal_spec in E as [_ E]. discriminate E.
Qed.

Lemma complaint_line pr ord input se se' r name arguments : all_ascii input -> command_parts input name arguments ->
  calculate pr ord the_executor input se = (se', r) ->
  (exists h, s_inputs se = Some h /\ forall id, snd (input_finished h (e_db (s_env se))) <> Ok id) \/
  ((forall text p, r = Err (InputError (mkMP text (Some p))) <-> command_complaint (s_args se) name arguments text p) /\
   (forall text p, command_complaint (s_args se) name arguments text p -> s_args se' = s_args se /\ s_env se' = after_recording se)).
Proof.
  intros Ha Hp C. destruct (calculate_two _ _ _ _ _ _ _ C) as [(_ & _ & _ & N)|(id & B)]; [left; exact N|right].
  unfold calculate_body in B. rewrite (proj2 (tokenize_command input (a_radix (s_args se)) name arguments) (conj Ha Hp)) in B.
  assert (Cr : forall text p, command_complaint (s_args se) name arguments text p ->
     r = Err (InputError (mkMP text (Some p))) /\ s_args se' = s_args se /\ s_env se' = after_recording se).
  { intros text p H. rewrite (complaint_run pr ord _ _ _ _ _ (after_recording se) H) in B. cmd_leaf B. auto. }
  split; [|intros text p H; apply (Cr text p H)]. intros text p. split; [|intros H; apply (Cr text p H)].
  intros Er. destruct (execute_command pr ord the_executor name arguments (s_args se) (after_recording se)) as [[a1 s1] o] eqn:X. destruct o as [[m t]|e|q].
  - destruct (touch_all t id s1) as [s2 r2] eqn:Tt. apply pair_equal_spec in B as [_ B]. rewrite Er in B. exfalso.
    destruct (touch_all_settled _ _ _ _ _ Tt) as (_ & _ & K).
    destruct r2 as [u|e|q]; try discriminate B. destruct (K e eq_refl) as (x & ->). discriminate B.
  - apply pair_equal_spec in B as [_ B]. rewrite Er in B. assert (e = InputError (mkMP text (Some p))) as -> by congruence. eapply run_complaint. exact X.
  - apply pair_equal_spec in B as [_ B]. rewrite Er in B. discriminate B.
Qed.

Lemma one_complaint a name arguments text p text' p' :
  command_complaint a name arguments text p -> command_complaint a name arguments text' p' -> text = text' /\ p = p'.
Proof.
  intros H H'. apply (complaint_run Release (fun l => l) _ _ _ _ _ (mkEnv None None)) in H, H'. rewrite H in H'. apply cmd_err_inj, input_error_inj in H'. exact H'.
Qed.
