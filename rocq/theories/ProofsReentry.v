(** ProofsReentry.v -- entering answers again, and comparing them. *)
From Verif Require Import Base Position Num TokenTypes Errors Token SavedData Variables InputHistory
  SyntaxTree Commands Calculate SpecLex SpecGrammar SpecEval SpecPrint SpecHistory SpecCalc SpecSession SpecReentry.
From Verif Require Import ProofsLex ProofsLex2 ProofsParse2 ProofsNum ProofsEval ProofsPrint ProofsPrint2 ProofsPrint3 ProofsPrint4 ProofsCalc ProofsCalc4 ProofsCalc6 ProofsSession2 ProofsPure PropertiesParse PropertiesPrint.
From Coq Require Import String Lia Qabs Lqa List.
Local Open Scope list_scope.

(** ** Order *)
Lemma nearest_mono radix p v w q q' : nearest radix p v q -> nearest radix p w q' -> (v <= w)%Q -> (q <= q')%Q.
Proof.
  intros (R & N) (R' & N') L. destruct (Qlt_le_dec q' q) as [H|H]; [|exact H]. exfalso.
  destruct (N q' R') as (A & T). destruct (N' q R) as (A' & T').
  assert (Z0 : representable radix p 0) by (exists 0%Z; ring).
  destruct (N 0%Q Z0) as (B & _). destruct (N' 0%Q Z0) as (B' & _).
  assert (M1 : (q + q' <= 2 * v)%Q).
  { destruct (Qlt_le_dec (2 * v) (q + q')) as [X|X]; [|exact X]. exfalso. revert A. apply Qlt_not_le.
    apply Qabs_case; intros; apply Qabs_case; intros; lra. }
  assert (M2 : (2 * w <= q + q')%Q).
  { destruct (Qlt_le_dec (q + q') (2 * w)) as [X|X]; [|exact X]. exfalso. revert A'. apply Qlt_not_le.
    apply Qabs_case; intros; apply Qabs_case; intros; lra. }
  assert (Ev : (v == w)%Q) by lra. assert (Em : (q + q' == 2 * v)%Q) by lra.
  assert (D : (Qabs (q' - v) == Qabs (q - v))%Q) by (apply Qabs_case; intros; apply Qabs_case; intros; lra).
  assert (D' : (Qabs (q - w) == Qabs (q' - w))%Q) by (apply Qabs_case; intros; apply Qabs_case; intros; lra).
  specialize (T D). specialize (T' D').
  assert (Eq : (q == - q')%Q). { revert T T'. apply Qabs_case; intros; revert T T'; apply Qabs_case; intros; lra. }
  assert (V0 : (v == 0)%Q) by lra. revert B. apply Qlt_not_le. apply Qabs_case; intros; apply Qabs_case; intros; lra.
Qed.
Definition any_settings : args := mkArgs 10 false None 5 5 false false false.
Lemma shows_unique radix text q q' : (2 <= radix <= 16)%N -> shows radix text q -> shows radix text q' -> (q == q')%Q.
Proof.
  intros Hr (u & neg & ids & fds & D & E) (u' & neg' & ids' & fds' & D' & E').
  destruct (read_back radix u neg ids fds text (Qred q) Hr D) as (ts & t & T & P & X); [rewrite Qred_correct; symmetry; exact E|apply canon_Qred|].
  destruct (read_back radix u' neg' ids' fds' text (Qred q') Hr D') as (ts' & t' & T' & P' & X'); [rewrite Qred_correct; symmetry; exact E'|apply canon_Qred|].
  rewrite T in T'. injection T' as <-. rewrite P in P'. injection P' as <-.
  specialize (X Debug any_settings None (mkEnv None None)). specialize (X' Debug any_settings None (mkEnv None None)).
  rewrite X in X'. injection X' as E1. rewrite <- (Qred_correct q), <- (Qred_correct q'). unfold Qeq. cbn. congruence.
Qed.

Lemma spelled_no_comma upper ds : Forall (fun d => (d < 16)%N) ds -> filter (fun c => negb (N.eqb c 44)) (spell upper ds) = spell upper ds.
Proof.
  intros H. induction H as [|d ds Hd _ IH]; [reflexivity|]. change (spell upper (d :: ds)) with (spell upper [d] ++ spell upper ds). etransitivity; [apply filter_app|]. f_equal; [|exact IH].
  assert (L : Forall (fun d => filter (fun c => negb (N.eqb c 44)) (spell upper [d]) = spell upper [d]) (map N.of_nat (seq 0 16))).
  { destruct upper; repeat constructor. }
  rewrite Forall_forall in L. apply L. apply in_map_iff. exists (N.to_nat d). split; [apply N2Nat.id|]. apply in_seq. lia.
Qed.
Lemma result_shows a v text : valid_settings a -> a_fractional a = false -> result_text a v text ->
  exists q, shows (output_radix a) (without_commas text) q /\ nearest (output_radix a) (a_precision a) v q.
Proof.
  intros Ha F [(F' & _)|(_ & neg & ids & fds & gs & Hd & Hne & Hz & Ng & Nr & Len & G & ->)]; [congruence|].
  pose proof (output_radix_ok a Ha) as Hr. exists (text_value (output_radix a) neg ids fds). split; [|exact Nr].
  assert (H16 : Forall (fun d => (d < 16)%N) (ids ++ fds)) by (eapply Forall_impl; [|exact Hd]; intros d Hd'; cbn beta in Hd'; lia).
  apply Forall_app in H16 as [Hi Hf].
  exists (a_upper a), neg, ids, fds. split; [|reflexivity]. split; [|auto]. unfold without_commas. rewrite !filter_app.
  f_equal; [destruct neg; reflexivity|]. f_equal.
  - destruct (a_commas a); [|apply spelled_no_comma; exact Hi].
    change (fun c : N => negb (c =? 44)%N) with (fun c : N => negb (c =? c_comma)%N).
    rewrite filter_join by reflexivity. rewrite (grouped_concat _ _ G). apply spelled_no_comma; exact Hi.
  - destruct fds as [|d fds]; [reflexivity|]. rewrite filter_app. f_equal. apply spelled_no_comma. exact Hf.
Qed.
Lemma answers_ordered a v w t1 t2 q1 q2 : valid_settings a -> a_fractional a = false -> result_text a v t1 -> result_text a w t2 -> (v <= w)%Q ->
  shows (output_radix a) (without_commas t1) q1 -> shows (output_radix a) (without_commas t2) q2 -> (q1 <= q2)%Q.
Proof.
  intros Ha F R1 R2 L S1 S2. destruct (result_shows a v t1 Ha F R1) as (x1 & X1 & N1). destruct (result_shows a w t2 Ha F R2) as (x2 & X2 & N2).
  pose proof (output_radix_ok a Ha) as Hr.
  rewrite (shows_unique _ _ _ _ Hr S1 X1), (shows_unique _ _ _ _ Hr S2 X2). eapply nearest_mono; eauto.
Qed.

(** ** Entering a number *)
Lemma entered pr ord x a line se se' r ts t v : working_session se -> s_args se = a -> tokenize line (a_radix a) = Ok (PTokens ts) -> syntax_tree_new ts = Ok t ->
  (forall pr a id e, tree_execute pr a t id e = (e, Ok v)) -> canon v ->
  calculate pr ord x line se = (se', r) -> exists text, r = Ok text /\ result_text a v text.
Proof.
  intros W Ea T P X Cv C. subst a. rewrite (working_pure _ _ _ _ _ _ _ _ W T C). pose proof W as (A & B & _).
  pose proof (recording_calm se W) as Nf. destruct (recording_ok se B) as (Rok & _).
  destruct (exec_pev pr (s_args se) (after_recording se) (st_root t) Rok Nf (after_recording se) (grows_refl _)) as (V & _).
  pose proof (X pr (s_args se) None (after_recording se)) as X1. pose proof (X pr (s_args se) None (mkEnv None None)) as X2. unfold tree_execute, then_do in X1, X2.
  assert (Nv : st_var t = None).
  { destruct (st_var t) as [y|]; [|reflexivity]. exfalso. destruct (exec pr (s_args se) (st_root t) (mkEnv None None)) as [s1 [q|e|p]]; try discriminate X2.
    destruct (e_vars s1) eqn:E1; [|discriminate X2]. destruct (vs_update _ _ _ _ _) as [[vars' db'] [u|e|p]]; discriminate X2. }
  rewrite Nv in X1. destruct (exec pr (s_args se) (st_root t) (after_recording se)) as [s1 [q|e|p]]; try discriminate X1. injection X1 as -> ->. cbn [snd] in V.
  unfold pure_reply. destruct ts as [|t0 ts].
  { exfalso. apply parse_iff in P. inversion P as [? ? D|]; subst. exact (proj1 derives_nonempty _ _ _ D eq_refl). }
  rewrite P, Nv, <- V. cbn [bind]. exact (format_text (s_args se) v A Cv).
Qed.
Lemma number_entered pr ord x a text q se se' r : working_session se -> s_args se = a -> shows (a_radix a) text q ->
  calculate pr ord x text se = (se', r) -> exists text2, r = Ok text2 /\ result_text a q text2.
Proof.
  intros W Ea (u & neg & ids & fds & D & E) C. pose proof (proj1 (proj1 W)) as Hr. rewrite Ea in Hr.
  destruct (read_back (a_radix a) u neg ids fds text (Qred q) Hr D) as (ts & t & T & P & X); [rewrite Qred_correct; symmetry; exact E|apply canon_Qred|].
  destruct (entered pr ord x a text se se' r ts t (Qred q) W Ea T P ltac:(intros; apply X) (canon_Qred q) C) as (text2 & -> & R).
  exists text2. split; [reflexivity|]. eapply result_text_eq; [|exact R]. apply Qred_correct.
Qed.
Lemma no_commas a v text : valid_settings a -> a_fractional a = false -> a_commas a = false -> result_text a v text -> without_commas text = text.
Proof.
  intros Ha F Cm [(F' & _)|(_ & neg & ids & fds & gs & Hd & Hne & Hz & Ng & Nr & Len & G & ->)]; [congruence|].
  pose proof (output_radix_ok a Ha) as Hr.
  assert (H16 : Forall (fun d => (d < 16)%N) (ids ++ fds)) by (eapply Forall_impl; [|exact Hd]; intros d Hd'; cbn beta in Hd'; lia).
  apply Forall_app in H16 as [Hi Hf]. rewrite Cm. unfold without_commas. rewrite !filter_app.
  f_equal; [destruct neg; reflexivity|]. f_equal; [apply spelled_no_comma; exact Hi|].
  destruct fds as [|d fds]; [reflexivity|]. rewrite filter_app. f_equal. apply spelled_no_comma. exact Hf.
Qed.
Lemma nearest_exact radix p v q : representable radix p v -> nearest radix p v q -> (q == v)%Q.
Proof.
  intros R (_ & N). destruct (N v R) as (A & _). setoid_replace (v - v)%Q with 0%Q in A by ring. change (Qabs 0) with 0%Q in A.
  revert A. apply Qabs_case; intros; lra.
Qed.
Lemma typed_back pr ord x a v text se se' r : a_fractional a = false -> a_commas a = false -> output_radix a = a_radix a ->
  result_text a v text -> working_session se -> s_args se = a -> calculate pr ord x text se = (se', r) ->
  exists q text2, r = Ok text2 /\ shows (a_radix a) text q /\ shows (a_radix a) text2 q /\ nearest (a_radix a) (a_precision a) v q /\ result_text a q text2 /\
    (representable (a_radix a) (a_precision a) v -> text2 = text).
Proof.
  intros F Cm Ro R W Ea C. assert (Ha : valid_settings a) by (rewrite <- Ea; exact (proj1 W)).
  destruct (result_shows a v text Ha F R) as (q & S & N). rewrite (no_commas a v text Ha F Cm R), Ro in S. rewrite Ro in N.
  destruct (number_entered pr ord x a text q se se' r W Ea S C) as (text2 & -> & R2).
  destruct (result_shows a q text2 Ha F R2) as (q2 & S2 & N2). rewrite (no_commas a q text2 Ha F Cm R2), Ro in S2. rewrite Ro in N2.
  pose proof (nearest_exact _ _ _ _ (proj1 N) N2) as E2.
  exists q, text2. split; [reflexivity|]. split; [exact S|]. split.
  { destruct S2 as (u & neg & ids & fds & D & E). exists u, neg, ids, fds. split; [exact D|]. rewrite <- E. symmetry. exact E2. }
  split; [exact N|]. split; [exact R2|]. intros Rv. pose proof (nearest_exact _ _ _ _ Rv N) as E.
  apply (result_text_unique a v); [apply (output_radix_ok a Ha)| |exact R]. eapply result_text_eq; [exact E|exact R2].
Qed.
Lemma typed_back_twice pr ord ord2 x a v text se se' r se2 se2' r2 text2 : a_fractional a = false -> a_commas a = false -> output_radix a = a_radix a ->
  result_text a v text -> working_session se -> s_args se = a -> calculate pr ord x text se = (se', r) -> r = Ok text2 ->
  working_session se2 -> s_args se2 = a -> calculate pr ord2 x text2 se2 = (se2', r2) -> r2 = Ok text2.
Proof.
  intros F Cm Ro R W Ea C -> W2 Ea2 C2.
  destruct (typed_back _ _ _ _ _ _ _ _ _ F Cm Ro R W Ea C) as (q & t & E & S & _ & N & R2 & _). injection E as <-.
  destruct (typed_back _ _ _ _ _ _ _ _ _ F Cm Ro R2 W2 Ea2 C2) as (q' & t' & -> & _ & _ & N' & R3 & X). f_equal. apply X. exact (proj1 N).
Qed.

(** ** Fractions *)
Lemma canon_inject z : canon (inject_Z z).
Proof. exact (ProofsNum.canon_int z). Qed.
Lemma digit_first ids rest : Forall (fun d => (d < 16)%N) ids -> ids <> [] -> ~ command_line (spell false ids ++ rest).
Proof.
  intros H Hn (pre & body & E & Sp). destruct ids as [|d ids]; [congruence|]. inversion H as [|? ? Hd _]; subst.
  assert (L : Forall (fun d => forall c s, spell false (d :: ids) = c :: s -> (48 <= c)%N) (map N.of_nat (seq 0 16))).
  { repeat constructor; intros c s [= <- _]; discriminate. }
  rewrite Forall_forall in L. assert (D : In d (map N.of_nat (seq 0 16))) by (apply in_map_iff; exists (N.to_nat d); split; [apply N2Nat.id|apply in_seq; lia]).
  specialize (L d D). destruct (spell false (d :: ids)) as [|c s] eqn:Es; [discriminate Es|]. specialize (L c s eq_refl).
  destruct pre as [|c' pre]; cbn [app] in E.
  - injection E as -> _. vm_compute in L. apply L. reflexivity.
  - injection E as -> _. inversion Sp as [|? ? S _]; subst. destruct S as [->|[_ S]]; [vm_compute in L; apply L; reflexivity|]. lia.
Qed.
Lemma minus_first rest : ~ command_line (lit "-" ++ rest).
Proof.
  intros (pre & body & E & Sp). destruct pre as [|c pre]; [discriminate E|]. injection E as <- _. inversion Sp as [|? ? S _]; subst.
  destruct S as [S|[_ S]]; [discriminate S|]. vm_compute in S. apply S. reflexivity.
Qed.
Lemma integer_word z s : integer_text 10 z s -> exists (neg : bool) (ids : list N),
  s = (if neg then lit "-" else []) ++ spell false ids /\ is_word (spell false ids) /\ all_ascii (spell false ids) /\
  word_token 10 (spell false ids) (TNumber (inject_Z (Z.abs z))) /\ (neg = true <-> (z < 0)%Z) /\ Forall (fun d => (d < 16)%N) ids /\ ids <> [].
Proof.
  intros (neg & ids & (Es & Hd & Hne & Hl) & Hn & Hz). exists neg, ids. rewrite app_nil_r in Es. split; [exact Es|].
  assert (R10 : (2 <= 10 <= 16)%N) by lia. destruct (printed_word false 10 ids [] R10 Hd Hne) as (W & A & K). rewrite app_nil_r in W, A, K. split; [exact W|]. split; [exact A|].
  pose proof (int_value_nonneg 10 ids) as Nn.
  split; [|split; [exact Hn|split; [|exact Hne]]].
  - apply K; [|apply canon_inject]. assert (Ez : Z.abs z = int_value 10 ids) by (destruct neg; lia). rewrite Ez. cbn [frac_value]. ring.
  - rewrite app_nil_r in Hd. eapply Forall_impl; [|exact Hd]. intros d Hd'. cbn beta in Hd'. lia.
Qed.
Lemma fraction_read v text : fraction_text 10 v text -> exists ts t, tokenize text 10 = Ok (PTokens ts) /\ syntax_tree_new ts = Ok t /\
  forall pr a id e, tree_execute pr a t id e = (e, Ok (Qred v)).
Proof.
  intros (n & d & Ev & G & [[-> (neg & ids & D & Hn & Hz)]|[Hd (sn & sd & Tn & Td & ->)]]).
  - apply (read_back 10 false neg ids [] text); [lia|exact D| |apply canon_Qred]. rewrite Qred_correct, Ev. unfold text_value. cbn [frac_value]. destruct neg; rewrite Hz.
    + change (- int_value 10 ids # 1) with (- inject_Z (int_value 10 ids))%Q. ring.
    + change (int_value 10 ids # 1) with (inject_Z (int_value 10 ids)). ring.
  - destruct (integer_word _ _ Tn) as (neg & ids & -> & Wn & An & Kn & Hn & H16 & Hne).
    destruct (integer_word _ _ Td) as (neg' & ids' & -> & Wd & Ad & Kd & Hn' & _).
    destruct neg'; [destruct Hn' as [Hn' _]; specialize (Hn' eq_refl); lia|]. cbn [app].
    set (w := spell false ids) in *. set (w' := spell false ids') in *.
    assert (Dz : ~ (inject_Z (Zpos d) == 0)%Q) by discriminate.
    assert (Val : forall m, m = n -> Qred (inject_Z m / inject_Z (Z.pos d)) = Qred v).
    { intros m ->. apply Qred_complete. rewrite Ev. rewrite (Qmake_Qdiv n d). reflexivity. }
    destruct neg.
    + eexists [mkPositioned (TBin Subtract) (mkPos 0 1); mkPositioned (TNumber (inject_Z (Z.abs n))) (mkPos 1 (List.length w));
        mkPositioned (TBin Divide) (mkPos (1 + List.length w) 1); mkPositioned (TNumber (inject_Z (Z.abs (Zpos d)))) (mkPos (1 + List.length w + 1) (List.length w'))], _.
      split; [|split].
      * apply tokenize_tokens; [reflexivity|]. rewrite <- app_assoc. split; [apply Forall_app; split; [repeat constructor|apply Forall_app; split; [exact An|apply Forall_app; split; [repeat constructor|exact Ad]]]|].
        split; [apply minus_first|]. cbn [app]. apply rd_punct; [simpl; tauto|].
        apply rd_word; [apply Wn|apply Wn| |exact Kn|]; [intros [_ Hp]; apply Hp; exists (TBin Divide); simpl; tauto|]. apply rd_punct; [simpl; tauto|].
        rewrite <- (app_nil_r w'). rewrite app_nil_r at 2. apply rd_word; [apply Wd|apply Wd|exact I|exact Kd|constructor].
      * apply C09_parse_iff_grammar. constructor. apply d_weaken.
        refine (d_binary 3 Divide _ [_; _] [_] _ _ eq_refl _ _).
        -- do 3 apply d_weaken. apply d_negate. apply d_weaken. apply d_number.
        -- do 3 apply d_weaken. apply d_number.
      * intros pr a id e. unfold tree_execute. cbn [st_root st_var exec then_do exec_unary exec_binary pd_value pd_pos]. cbn [Qnum inject_Z Z.abs Z.eqb].
        rewrite ratio_div_ok by exact Dz. do 2 f_equal. unfold ratio_neg. rewrite <- (Val n eq_refl). do 2 f_equal. unfold inject_Z, Qopp. cbn [Qnum Qden]. f_equal.
        destruct Hn as [Hn _]. specialize (Hn eq_refl). lia.
    + eexists [mkPositioned (TNumber (inject_Z (Z.abs n))) (mkPos 0 (List.length w));
        mkPositioned (TBin Divide) (mkPos (0 + List.length w) 1); mkPositioned (TNumber (inject_Z (Z.abs (Zpos d)))) (mkPos (0 + List.length w + 1) (List.length w'))], _.
      split; [|split].
      * apply tokenize_tokens; [reflexivity|]. cbn [app]. split; [apply Forall_app; split; [exact An|apply Forall_app; split; [repeat constructor|exact Ad]]|].
        split; [apply digit_first; assumption|].
        apply rd_word; [apply Wn|apply Wn| |exact Kn|]; [intros [_ Hp]; apply Hp; exists (TBin Divide); simpl; tauto|]. apply rd_punct; [simpl; tauto|].
        rewrite <- (app_nil_r w'). rewrite app_nil_r at 2. apply rd_word; [apply Wd|apply Wd|exact I|exact Kd|constructor].
      * apply C09_parse_iff_grammar. constructor. apply d_weaken.
        refine (d_binary 3 Divide _ [_] [_] _ _ eq_refl _ _).
        -- do 4 apply d_weaken. apply d_number.
        -- do 3 apply d_weaken. apply d_number.
      * intros pr a id e. unfold tree_execute. cbn [st_root st_var exec then_do exec_unary exec_binary pd_value pd_pos]. cbn [Qnum inject_Z Z.abs Z.eqb].
        rewrite ratio_div_ok by exact Dz. do 2 f_equal. apply Val. destruct (Z_lt_le_dec n 0) as [L|L]; [destruct Hn as [_ Hn]; discriminate (Hn L)|]. lia.
Qed.
Lemma fraction_typed_back pr ord x a v text se se' r : a_fractional a = true -> a_radix a = 10%N -> result_text a v text ->
  working_session se -> s_args se = a -> calculate pr ord x text se = (se', r) -> r = Ok text.
Proof.
  intros F Ra R W Ea C. destruct R as [(_ & T)|(F' & _)]; [|congruence]. assert (Ha : valid_settings a) by (rewrite <- Ea; exact (proj1 W)).
  destruct (fraction_read v text T) as (ts & t & Tk & P & X). rewrite <- Ra in Tk.
  destruct (entered pr ord x a text se se' r ts t (Qred v) W Ea Tk P X (canon_Qred v) C) as (text2 & -> & R2). f_equal.
  apply (result_text_unique a v); [apply (output_radix_ok a Ha)| |left; auto]. eapply result_text_eq; [apply Qred_correct|exact R2].
Qed.
