(** ProofsPrint2.v -- commas, reading printed numbers back, fractional output. *)
From Verif Require Import Base Position TokenTypes Errors Num Token SyntaxTree SpecLex SpecGrammar ProofsLex ProofsLex2 ProofsParse ProofsParse3
  ProofsText ProofsNum Operations SpecPrint ProofsPrint PropertiesParse.
From Coq Require Import String Qabs Lqa.
Local Open Scope nat_scope.
Local Open Scope list_scope.

(** ** Commas *)
Lemma join_snoc gs g : gs <> [] -> join_commas (gs ++ [g]) = join_commas gs ++ lit "," ++ g.
Proof.
  induction gs as [|a gs IH]; [congruence|]. intros _. destruct gs as [|b gs]; [reflexivity|].
  change (join_commas ((a :: b :: gs) ++ [g])) with (a ++ lit "," ++ join_commas ((b :: gs) ++ [g])).
  change (join_commas (a :: b :: gs)) with (a ++ lit "," ++ join_commas (b :: gs)). rewrite IH by discriminate. rewrite <- !app_assoc. reflexivity.
Qed.
Lemma grouped_nonempty s gs : grouped s gs -> gs <> [].
Proof. destruct 1; [discriminate|]. destruct gs; discriminate. Qed.

Lemma comma_rev_grouped : forall n s, List.length s <= n -> s <> [] ->
  exists gs, grouped s gs /\ rev (comma_rev (rev s)) = join_commas gs.
Proof.
  induction n as [|n IH]; intros s Hn Hs; [destruct s; [congruence|simpl in Hn; lia]|].
  remember (rev s) as r eqn:Er. assert (Es : s = rev r) by (rewrite Er, rev_involutive; reflexivity).
  destruct r as [|a [|b [|c rest]]].
  - exfalso. apply Hs. exact Es.
  - subst s. exists [rev [a]]. split; [constructor; simpl; lia|reflexivity].
  - subst s. exists [rev [a; b]]. split; [constructor; simpl; lia|reflexivity].
  - destruct rest as [|d rest].
    + subst s. exists [rev [a; b; c]]. split; [constructor; simpl; lia|reflexivity].
    + destruct (IH (rev (d :: rest))) as (gs & G & J).
      { subst s. rewrite rev_length in *. simpl in *. lia. }
      { intros E. apply (f_equal (@List.length _)) in E. rewrite rev_length in E. discriminate. }
      exists (gs ++ [[c; b; a]]). split.
      * subst s. change (rev (a :: b :: c :: d :: rest)) with (((rev (d :: rest) ++ [c]) ++ [b]) ++ [a]).
        rewrite <- !app_assoc. change ([c] ++ [b] ++ [a]) with [c; b; a]. constructor; [exact G|reflexivity].
      * rewrite join_snoc by (eapply grouped_nonempty; eauto). rewrite <- J, rev_involutive.
        change (comma_rev (a :: b :: c :: d :: rest)) with (a :: b :: c :: c_comma :: comma_rev (d :: rest)).
        cbn [rev]. rewrite <- !app_assoc. reflexivity.
Qed.
Lemma insert_commas_grouped s : s <> [] -> exists gs, grouped s gs /\ insert_commas s = join_commas gs.
Proof. intros H. apply (comma_rev_grouped (List.length s) s); auto. Qed.

Lemma grouped_concat s gs : grouped s gs -> List.concat gs = s.
Proof. induction 1; [apply app_nil_r|]. rewrite concat_app, IHgrouped. simpl. rewrite app_nil_r. reflexivity. Qed.
Lemma filter_join (f : char -> bool) gs : f c_comma = false -> filter f (join_commas gs) = filter f (List.concat gs).
Proof.
  intros Hf. induction gs as [|g gs IH]; [reflexivity|]. destruct gs as [|h gs].
  - simpl. rewrite app_nil_r. reflexivity.
  - change (join_commas (g :: h :: gs)) with (g ++ c_comma :: join_commas (h :: gs)).
    rewrite filter_app. cbn [filter]. rewrite Hf, IH. change (List.concat (g :: h :: gs)) with (g ++ List.concat (h :: gs)).
    rewrite filter_app. reflexivity.
Qed.

(** ** The characters of spelled digits *)
Lemma spell_char (u : bool) d : (d < 16)%N -> 
  let c := nth (N.to_nat d) (if u then lit "0123456789ABCDEF" else lit "0123456789abcdef") 63%N in
  has_digit c d /\ word_char c /\ c <> c_comma /\ c <> c_dollar /\ c <> c_underscore /\ c <> c_dot /\ (c < 128)%N /\ c <> 115%N /\ c <> 120%N /\ c <> 109%N.
Proof.
  intros Hd. assert (E : In d (map N.of_nat (seq 0 16))).
  { apply in_map_iff. exists (N.to_nat d). split; [lia|]. apply in_seq. lia. }
  cbv zeta. rewrite word_char_iff.
  assert (X : (if u then nth_error (lit "0123456789ABCDEFGHIJKLMNOPQRSTUVWXYZ") (N.to_nat d) else nth_error (lit "0123456789abcdefghijklmnopqrstuvwxyz") (N.to_nat d)) = Some (nth (N.to_nat d) (if u then lit "0123456789ABCDEF" else lit "0123456789abcdef") 63%N)).
  { destruct u; simpl in E; repeat (destruct E as [<-|E]; [reflexivity|]); destruct E. }
  split; [unfold has_digit; destruct u; [right|left]; exact X|]. clear X.
  destruct u; simpl in E; repeat (destruct E as [<-|E]; [vm_compute; repeat split; discriminate|]); destruct E.
Qed.
Lemma spell_forall (u : bool) ds (P : char -> Prop) : Forall (fun d => (d < 16)%N) ds ->
  (forall d, (d < 16)%N -> P (nth (N.to_nat d) (if u then lit "0123456789ABCDEF" else lit "0123456789abcdef") 63%N)) ->
  Forall P (spell u ds).
Proof. intros H HP. induction H; constructor; auto. Qed.
Lemma spell_digits_of u radix ds : (radix <= 16)%N -> Forall (fun d => (d < radix)%N) ds -> digits_of radix (spell u ds) ds.
Proof.
  intros Hr H. induction H as [|d ds Hd _ IH]; constructor; [|exact IH]. split; [|exact Hd].
  apply (spell_char u d). lia.
Qed.
Lemma forall_16 radix ds : (radix <= 16)%N -> Forall (fun d => (d < radix)%N) ds -> Forall (fun d => (d < 16)%N) ds.
Proof. intros Hr H. eapply Forall_impl; [|exact H]. intros; simpl in *; lia. Qed.

Lemma no_underscores_id w : Forall (fun c => c <> c_underscore) w -> no_underscores w = w.
Proof.
  unfold no_underscores. change 95%N with c_underscore. induction 1 as [|c w Hc _ IH]; [reflexivity|]. cbn [filter]. 
  destruct (N.eqb_spec c c_underscore); [contradiction|]. cbn [negb]. rewrite IH. reflexivity.
Qed.

(** the unsigned part of a printed number is a numeral *)
Lemma printed_word (upper : bool) radix ids fds : (2 <= radix <= 16)%N ->
  Forall (fun d => (d < radix)%N) (ids ++ fds) -> ids <> [] ->
  let w := spell upper ids ++ match fds with [] => [] | _ => lit "." ++ spell upper fds end in
  is_word w /\ all_ascii w /\
  forall v, (v == inject_Z (int_value radix ids) + frac_value radix fds)%Q -> canon v -> word_token radix w (TNumber v).
Proof.
  intros Hr H Hne w. pose proof H as H16. apply (forall_16 radix) in H16; [|lia].
  apply Forall_app in H as [Hi Hf]. apply Forall_app in H16 as [Hi16 Hf16].
  assert (A : forall P : char -> Prop, P c_dot -> 
    (forall d, (d < 16)%N -> P (nth (N.to_nat d) (if upper then lit "0123456789ABCDEF" else lit "0123456789abcdef") 63%N)) -> Forall P w).
  { intros P Pd PP. apply Forall_app. split; [apply spell_forall; assumption|].
    destruct fds as [|d fds]; [constructor|]. apply Forall_app. split; [constructor; [exact Pd|constructor]|].
    apply spell_forall; assumption. }
  split; [split|split].
  - unfold w. destruct ids; [contradiction|discriminate].
  - apply A; [apply word_char_iff; split; reflexivity|]. intros d Hd. apply (spell_char upper d Hd).
  - apply A; [reflexivity|]. intros d Hd. apply (spell_char upper d Hd).
  - intros v Hv Cv.
    assert (K : forall t, ~ In (w, t) keywords).
    { intros t Ht. assert (F1 : Forall (fun c => c <> 115%N /\ c <> 120%N /\ c <> 109%N) w).
      { apply A; [repeat split; discriminate|]. intros d Hd. pose proof (spell_char upper d Hd) as SC. cbv zeta in SC. repeat split; apply SC. }
      simpl in Ht. rewrite Forall_forall in F1. 
      repeat (destruct Ht as [Ht|Ht]; [apply pair_equal_spec in Ht as [Ht _]; rewrite <- Ht in F1;
        first [ destruct (F1 115%N) as (B & _ & _); [solve [simpl; tauto]|congruence]
              | destruct (F1 109%N) as (_ & _ & B); [solve [simpl; tauto]|congruence] ]|]).
      destruct Ht. }
    apply wt_number; [exact K|]. split; [exact Cv|].
    assert (U : no_underscores w = w).
    { apply no_underscores_id. apply A; [discriminate|]. intros d Hd. apply (spell_char upper d Hd). }
    rewrite U. unfold w. destruct fds as [|d fds].
    + left. exists ids. rewrite app_nil_r. split; [exact Hne|]. split; [apply spell_digits_of; [lia|exact Hi]|].
      rewrite Hv. cbn [frac_value]. lra.
    + right. exists (spell upper ids), (spell upper (d :: fds)), ids, (d :: fds).
      split; [reflexivity|]. split; [apply spell_digits_of; [lia|exact Hi]|]. split; [apply spell_digits_of; [lia|exact Hf]|].
      split; [destruct ids; discriminate|exact Hv].
Qed.

Lemma line_end : word_ends [].
Proof. exact I. Qed.

Lemma not_command w : Forall (fun c => c <> c_slash) w -> ~ command_line w.
Proof.
  intros H (pre & body & E & _). rewrite E in H. apply Forall_app in H as [_ H]. cbn in H. inversion H as [|? ? H1 H2]. apply H1. reflexivity.
Qed.

(** Typing a printed number back. *)
Lemma read_back radix (upper neg : bool) ids fds s v : (2 <= radix <= 16)%N ->
  decimal_text radix upper neg ids fds s -> (text_value radix neg ids fds == v)%Q -> canon v ->
  exists ts t, tokenize s radix = Ok (PTokens ts) /\ syntax_tree_new ts = Ok t /\
    forall pr a id e, tree_execute pr a t id e = (e, Ok v).
Proof.
  intros Hr (Es & Hd & Hne & _) Hv Cv.
  destruct (printed_word upper radix ids fds Hr Hd Hne) as (Hw & Ha & Ht).
  set (w := spell upper ids ++ match fds with [] => [] | _ => lit "." ++ spell upper fds end) in *.
  set (q := (inject_Z (int_value radix ids) + frac_value radix fds)%Q) in *.
  assert (Hs : Forall (fun c => c <> c_slash) w).
  { destruct Hw as [_ Hw]. eapply Forall_impl; [|exact Hw]. intros c Hc ->. apply Hc. exists (TBin Divide). simpl; tauto. }
  unfold text_value in Hv. fold q in Hv. destruct neg; subst s.
  - assert (Cq : canon (- v)) by (apply canon_opp, Cv).
    assert (Eq : (- v == q)%Q) by (rewrite <- Hv; ring).
    specialize (Ht (- v)%Q Eq Cq).
    eexists [mkPositioned (TBin Subtract) (mkPos 0 1); mkPositioned (TNumber (- v)) (mkPos 1 (List.length w))], _.
    split; [|split].
    + apply tokenize_tokens; [apply radix_ok_spec; lia|]. split.
      { apply Forall_app. split; [repeat constructor|exact Ha]. }
      split.
      { intros (pre & body & E & Hp). destruct pre as [|c pre]; [discriminate E|]. injection E as <- E.
        inversion Hp as [|? ? Hc]; subst. destruct Hc as [Hc|Hc]; [discriminate Hc|]. destruct Hc as [_ Hc]. vm_compute in Hc. apply Hc. reflexivity. }
      apply rd_punct; [simpl; tauto|]. rewrite <- (app_nil_r w). rewrite app_nil_r at 2. apply rd_word; [apply Hw|apply Hw|exact I|exact Ht|constructor].
    + apply C09_parse_iff_grammar. constructor. do 4 apply d_weaken. apply d_negate. apply d_weaken. apply d_number.
    + intros pr a id e. unfold tree_execute. cbn. f_equal. f_equal. unfold ratio_neg. destruct v as [n d]. unfold Qopp; simpl. rewrite Z.opp_involutive. reflexivity.
  - specialize (Ht v ltac:(symmetry; exact Hv) Cv).
    eexists [mkPositioned (TNumber v) (mkPos 0 (List.length w))], _.
    split; [|split].
    + apply tokenize_tokens; [apply radix_ok_spec; lia|]. split; [exact Ha|].
      split; [apply not_command; auto|].
      cbn [app]. rewrite <- (app_nil_r w). rewrite app_nil_r at 2. apply rd_word; [apply Hw|apply Hw|exact I|exact Ht|constructor].
    + apply C09_parse_iff_grammar. constructor. do 5 apply d_weaken. apply d_number.
    + intros pr a id e. reflexivity.
Qed.
