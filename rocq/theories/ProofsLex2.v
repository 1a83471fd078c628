(** ProofsLex2.v -- consequences of the reading characterisation: positions, whitespace,
    argument lists. *)
From Verif Require Import Base Position Num TokenTypes Errors Token SpecLex ProofsPosition ProofsLex.
From Coq Require Import String.
Local Open Scope list_scope.

(** ** C02: positions *)

Lemma word_char_not_blank c : word_char c -> ~ blank c.
Proof. intros [H _]; exact H. Qed.
Lemma punct_char_not_blank c : punct_char c -> ~ blank c.
Proof. intros H. apply not_blank_ws, punct_not_blank, H. Qed.

Lemma text_at_app pre w s : text_at (pre ++ w ++ s) (mkPos (List.length pre) (List.length w)) = w.
Proof.
  unfold text_at; simpl. rewrite skipn_app, skipn_all, Nat.sub_diag. simpl.
  rewrite firstn_app, firstn_all, Nat.sub_diag. simpl. apply app_nil_r.
Qed.

Lemma nth_error_app_mid {A} (pre : list A) c s : nth_error (pre ++ c :: s) (List.length pre) = Some c.
Proof. rewrite nth_error_app2 by lia. rewrite Nat.sub_diag. reflexivity. Qed.

Lemma reading_layout radix o s ts : reading radix o s ts ->
  forall pre, o = List.length pre ->
  (forall t, In t ts -> o <= p_start (pd_pos t) /\ 1 <= p_width (pd_pos t) /\
      p_start (pd_pos t) + p_width (pd_pos t) <= List.length (pre ++ s) /\
      spells radix (text_at (pre ++ s) (pd_pos t)) (pd_value t)) /\
  (forall i j ti tj, i < j -> nth_error ts i = Some ti -> nth_error ts j = Some tj ->
      p_start (pd_pos ti) + p_width (pd_pos ti) <= p_start (pd_pos tj)) /\
  (forall k c, o <= k -> nth_error (pre ++ s) k = Some c ->
      (blank c <-> ~ exists t, In t ts /\ p_start (pd_pos t) <= k < p_start (pd_pos t) + p_width (pd_pos t))).
Proof.
  induction 1 as [o|o c s ts Hc H IH|o c t s ts Hc H IH|o w t s ts Hne Hw He Ht H IH]; intros pre Ho.
  - split; [intros t []|]. split; [intros [|] ? ? ? _ E; discriminate|].
    intros k c Hk E. rewrite app_nil_r in E.
    assert (X : nth_error pre k <> None) by congruence. apply nth_error_Some in X. lia.
  - destruct (IH (pre ++ [c])) as (I1 & I2 & I3); [rewrite app_length; simpl; lia|].
    rewrite <- app_assoc in *. simpl in I1, I3.
    split; [|split].
    + intros t Ht. destruct (I1 t Ht) as (A & B & C & D). repeat split; try assumption; lia.
    + exact I2.
    + intros k d Hk E. destruct (Nat.eq_dec k o) as [->|Hk'].
      * subst o. rewrite nth_error_app_mid in E. injection E as <-.
        split; [|intros _; exact Hc]. intros _ (t & Hin & Hr). apply I1 in Hin. lia.
      * apply I3; [lia|exact E].
  - destruct (IH (pre ++ [c])) as (I1 & I2 & I3); [rewrite app_length; simpl; lia|].
    rewrite <- app_assoc in *. simpl in I1, I3.
    split; [|split].
    + intros x [<-|Hx]; simpl.
      * split; [lia|]. split; [lia|]. split; [rewrite app_length; simpl; lia|].
        left. subst o. pose proof (text_at_app pre [c] s) as X. simpl in X. rewrite X. exact Hc.
      * destruct (I1 x Hx) as (A & B & C & D). repeat split; try assumption; lia.
    + intros [|i] [|j] ti tj Hij Ei Ej; try lia; simpl in Ei, Ej.
      * injection Ei as <-. simpl. apply nth_error_In in Ej. apply I1 in Ej. lia.
      * apply (I2 i j); [lia|assumption|assumption].
    + intros k d Hk E. destruct (Nat.eq_dec k o) as [->|Hk'].
      * subst o. rewrite nth_error_app_mid in E. injection E as <-. split.
        -- intros Hb. exfalso. apply (punct_char_not_blank c); [exists t; exact Hc|exact Hb].
        -- intros Hn. exfalso. apply Hn. eexists. split; [left; reflexivity|]. simpl. lia.
      * rewrite (I3 k d ltac:(lia) E). split; intros Hn (x & Hx & Hr); apply Hn.
        -- destruct Hx as [<-|Hx]; [simpl in Hr; lia|]. exists x; auto.
        -- exists x. split; [right; exact Hx|exact Hr].
  - destruct (IH (pre ++ w)) as (I1 & I2 & I3); [rewrite app_length; lia|].
    rewrite <- app_assoc in *.
    assert (Hlen : 1 <= List.length w) by (destruct w; [congruence|simpl; lia]).
    split; [|split].
    + intros x [<-|Hx]; simpl.
      * split; [lia|]. split; [lia|]. split; [rewrite !app_length; simpl; lia|].
        right. subst o. rewrite text_at_app. auto.
      * destruct (I1 x Hx) as (A & B & C & D). repeat split; try assumption; lia.
    + intros [|i] [|j] ti tj Hij Ei Ej; try lia; simpl in Ei, Ej.
      * injection Ei as <-. simpl. apply nth_error_In in Ej. apply I1 in Ej. lia.
      * apply (I2 i j); [lia|assumption|assumption].
    + intros k d Hk E. destruct (le_lt_dec (o + List.length w) k) as [Hk'|Hk'].
      * rewrite (I3 k d Hk' E). split; intros Hn (x & Hx & Hr); apply Hn.
        -- destruct Hx as [<-|Hx]; [simpl in Hr; lia|]. exists x; auto.
        -- exists x. split; [right; exact Hx|exact Hr].
      * split.
        -- intros Hb. exfalso. rewrite nth_error_app2 in E by lia. rewrite nth_error_app1 in E by lia.
           apply nth_error_In in E. rewrite Forall_forall in Hw. apply Hw in E. destruct E; contradiction.
        -- intros Hn. exfalso. apply Hn. eexists. split; [left; reflexivity|]. simpl. lia.
Qed.

Lemma tokenize_layout s radix ts : radix_ok radix = true -> tokenize s radix = Ok (PTokens ts) ->
  (forall t, In t ts -> 1 <= p_width (pd_pos t) /\
      p_start (pd_pos t) + p_width (pd_pos t) <= List.length s /\
      spells radix (text_at s (pd_pos t)) (pd_value t)) /\
  (forall i j ti tj, i < j -> nth_error ts i = Some ti -> nth_error ts j = Some tj ->
      p_start (pd_pos ti) + p_width (pd_pos ti) <= p_start (pd_pos tj)) /\
  (forall k c, nth_error s k = Some c ->
      (blank c <-> ~ exists t, In t ts /\ p_start (pd_pos t) <= k < p_start (pd_pos t) + p_width (pd_pos t))).
Proof.
  intros Hr H. apply tokenize_tokens in H as (_ & _ & H); [|assumption].
  destruct (reading_layout _ _ _ _ H [] eq_refl) as (A & B & C). simpl in *.
  split; [|split; [assumption|]].
  - intros t Ht. apply A in Ht. tauto.
  - intros k c Hk. apply C; [lia|assumption].
Qed.

(** ** C05: whitespace and underscores *)

Lemma reading_gap radix o gap s ts : Forall blank gap ->
  reading radix (o + List.length gap) s ts -> reading radix o (gap ++ s) ts.
Proof.
  intros H. revert o. induction H as [|c gap Hc H IH]; intros o R; simpl in *.
  - rewrite Nat.add_0_r in R. exact R.
  - apply rd_blank; [exact Hc|]. apply IH. replace (o + 1 + List.length gap) with (o + S (List.length gap)) by lia. exact R.
Qed.
Lemma reading_gap_inv radix gap o s ts : Forall blank gap ->
  reading radix o (gap ++ s) ts -> reading radix (o + List.length gap) s ts.
Proof.
  intros H. revert o. induction H as [|c gap Hc H IH]; intros o R; simpl in *.
  - rewrite Nat.add_0_r. exact R.
  - replace (o + S (List.length gap)) with (o + 1 + List.length gap) by lia. apply IH.
    remember (c :: gap ++ s) as z eqn:E.
    destruct R as [|? d ? ? Hb R'|? d t ? ts' Hp R'|? w t s' ts' Hne Hw He Ht R'].
    + discriminate.
    + injection E as -> ->. exact R'.
    + injection E as -> ->. exfalso. apply (punct_char_not_blank c); [exists t; exact Hp|exact Hc].
    + exfalso. destruct w as [|d w]; [congruence|]. simpl in E. injection E as -> _.
      inversion Hw as [|? ? Hd _]; subst. destruct Hd; contradiction.
Qed.

Lemma reading_punct_inv radix o c s ts : punct_char c -> reading radix o (c :: s) ts ->
  exists t ts', ts = mkPositioned t (mkPos o 1) :: ts' /\ In ([c], t) punctuation /\ reading radix (o + 1) s ts'.
Proof.
  intros Hc R. remember (c :: s) as z eqn:E.
  destruct R as [|? d ? ? Hb R'|? d t ? ts' Hp R'|? w t s' ts' Hne Hw He Ht R'].
  - discriminate.
  - injection E as -> ->. exfalso. apply (punct_char_not_blank c); assumption.
  - injection E as -> ->. eauto.
  - exfalso. destruct w as [|d w]; [congruence|]. simpl in E. injection E as -> _.
    inversion Hw as [|? ? Hd _]; subst. destruct Hd; contradiction.
Qed.
Lemma word_split_unique a b s t : Forall word_char a -> Forall word_char b -> word_ends s -> word_ends t ->
  a ++ s = b ++ t -> a = b /\ s = t.
Proof.
  intros Ha. revert b. induction Ha as [|c a Hc Ha IH]; intros b Hb Hs Ht E.
  - destruct Hb as [|d b Hd Hb]; [auto|]. simpl in E. subst s. simpl in Hs. contradiction.
  - destruct Hb as [|d b Hd Hb].
    + simpl in E. subst t. simpl in Ht. contradiction.
    + simpl in E. injection E as -> E. destruct (IH b Hb Hs Ht E) as [-> ->]. auto.
Qed.
Lemma reading_word_inv radix o w s ts : is_word w -> word_ends s -> reading radix o (w ++ s) ts ->
  exists t ts', ts = mkPositioned t (mkPos o (List.length w)) :: ts' /\ word_token radix w t /\
    reading radix (o + List.length w) s ts'.
Proof.
  intros [Hne Hw] Hs R. remember (w ++ s) as z eqn:Ez.
  destruct w as [|c0 w0]; [congruence|]. assert (Hc0 : word_char c0) by (inversion Hw; assumption).
  destruct R as [|? c ? ? Hb R'|? c t ? ts' Hp R'|? w t s' ts' Hne' Hw' He' Ht' R'].
  - discriminate.
  - injection Ez as -> _. destruct Hc0; contradiction.
  - injection Ez as -> _. destruct Hc0 as [_ Hc0]. exfalso. apply Hc0. exists t; exact Hp.
  - destruct (word_split_unique _ _ _ _ Hw' Hw He' Hs Ez) as [-> ->]. eauto.
Qed.

Lemma lexeme_head w : lexeme w -> exists c r, w = c :: r /\ ~ blank c /\ (~ word_char c <-> ~ is_word w).
Proof.
  intros [(c & -> & Hp)|[Hne Hw]].
  - exists c, []. split; [reflexivity|]. split; [apply punct_char_not_blank; exact Hp|].
    split; intros H X; apply H.
    + destruct X as [_ X]. inversion X; assumption.
    + destruct X; contradiction.
  - destruct w as [|c r]; [congruence|]. exists c, r. split; [reflexivity|].
    inversion Hw as [|? ? Hc Hr]; subst. split; [apply Hc|].
    split; intros H X; apply H; [exact Hc|split; assumption].
Qed.

(** A spacing after a word starts outside a word, when its first lexeme is none. *)
Lemma spacing_ends ws s : spacing ws s ->
  (forall w' ws', ws = w' :: ws' -> is_word w' -> word_ends s) -> word_ends s.
Proof.
  intros H Hw. destruct H as [gap Hg|gap w ws s Hg Hl H Hn].
  - destruct Hg as [|c gap Hc Hg]; simpl; [exact I|]. intros [X _]. contradiction.
  - destruct Hl as [(c & -> & Hp)|Hl].
    + destruct Hg as [|d gap Hd Hg]; simpl; intros [X Y]; contradiction.
    + apply (Hw w ws eq_refl Hl).
Qed.

Lemma num_word_transport radix w w' t :
  (2 <= radix <= 16)%N -> is_word w -> (exists v, word_token radix w (TNumber v)) ->
  no_underscores w = no_underscores w' -> word_token radix w t ->
  is_word w' /\ word_token radix w' t.
Proof.
  intros Hr [Hne Hw] (v & Hv) E Ht.
  assert (Hro : radix_ok radix = true) by (apply radix_ok_spec; lia).
  assert (Htv : t = TNumber v).
  { destruct (multichar_word radix [] w 0 Hro Hne Hw) as [(t0 & _ & Hu & _)|(Hno & _)].
    - rewrite (Hu _ Ht), <- (Hu _ Hv). reflexivity.
    - exfalso; eapply Hno; eauto. }
  subst t. clear Ht.
  assert (Hnum : numeral radix w v).
  { inversion Hv as [|? ? Hin|? ? _ X]; subst; [|exact X].
    exfalso. simpl in Hin. repeat (destruct Hin as [Hin|Hin]; [apply pair_equal_spec in Hin as [_ Hin]; discriminate|]). exact Hin. }
  assert (Hw' : Forall word_char w').
  { apply Forall_forall. intros c Hc. destruct (N.eq_dec c c_underscore) as [->|Hcu].
    - apply word_char_iff. split; reflexivity.
    - rewrite Forall_forall in Hw. apply Hw.
      assert (X : In c (no_underscores w')).
      { apply filter_In. split; [exact Hc|]. apply negb_true_iff, N.eqb_neq. exact Hcu. }
      rewrite <- E in X. apply filter_In in X. tauto. }
  assert (Hnum' : numeral radix w' v).
  { unfold numeral in *. rewrite <- E. exact Hnum. }
  assert (Hne' : w' <> []).
  { intros ->. destruct Hnum' as [_ [(ds & Hd & X & _)|(ip & fp & ? & ? & X & _)]].
    - apply digits_of_length in X. destruct ds; [congruence|discriminate].
    - destruct ip; discriminate. }
  split; [split; assumption|].
  apply wt_number; [|exact Hnum'].
  (* no keyword is a numeral in radix <= 16 *)
  intros t Hin.
  assert (Hbad : forall c d, In c w' -> c <> c_underscore -> c <> c_dot -> has_digit c d -> (d < radix)%N -> (digit_val c < 16)%N).
  { intros c d _ _ _ Hd Hlt. apply has_digit_val in Hd as [-> _]. lia. }
  assert (Hall : forall c, In c w' -> c <> c_underscore -> c <> c_dot -> (digit_val c < 16)%N).
  { intros c Hc Hcu Hcd.
    assert (X : In c (no_underscores w')).
    { apply filter_In. split; [exact Hc|]. apply negb_true_iff, N.eqb_neq. exact Hcu. }
    destruct Hnum' as [_ [(ds & Hd & D & _)|(ip & fp & ids & fds & Hsp & D1 & D2 & _)]].
    - clear -D X Hr. induction D as [|x d l ds [Hx Hlt] D IH]; [destruct X|].
      destruct X as [->|X]; [|apply IH; exact X]. apply has_digit_val in Hx as [-> _]. lia.
    - rewrite Hsp in X. apply in_app_or in X as [X|X].
      + clear -D1 X Hr. induction D1 as [|x d l ds [Hx Hlt] D IH]; [destruct X|].
        destruct X as [->|X]; [|apply IH; exact X]. apply has_digit_val in Hx as [-> _]. lia.
      + destruct X as [X|X]; [exfalso; apply Hcd; rewrite <- X; reflexivity|].
        clear -D2 X Hr. induction D2 as [|x d l ds [Hx Hlt] D IH]; [destruct X|].
        destruct X as [->|X]; [|apply IH; exact X]. apply has_digit_val in Hx as [-> _]. lia. }
  unfold keywords in Hin.
  destruct Hin as [Hin|[Hin|[Hin|[Hin|[]]]]]; apply pair_equal_spec in Hin as [<- _].
  - specialize (Hall 115%N ltac:(simpl; tauto) ltac:(discriminate) ltac:(discriminate)).
    revert Hall; vm_compute; discriminate.
  - specialize (Hall 115%N ltac:(simpl; tauto) ltac:(discriminate) ltac:(discriminate)).
    revert Hall; vm_compute; discriminate.
  - specialize (Hall 109%N ltac:(simpl; tauto) ltac:(discriminate) ltac:(discriminate)).
    revert Hall; vm_compute; discriminate.
  - specialize (Hall 109%N ltac:(simpl; tauto) ltac:(discriminate) ltac:(discriminate)).
    revert Hall; vm_compute; discriminate.
Qed.

Lemma same_lexeme_word radix w w' : (2 <= radix <= 16)%N -> same_lexeme radix w w' -> (is_word w <-> is_word w').
Proof.
  intros Hr [->|(Hw & (v & Hv) & E)]; [tauto|].
  destruct (num_word_transport radix w w' (TNumber v) Hr Hw) as [H _]; eauto. tauto.
Qed.

Lemma spacing_reading radix ws s : (2 <= radix <= 16)%N -> spacing ws s ->
  forall o ts, reading radix o s ts ->
  forall ws' s' o', Forall2 (same_lexeme radix) ws ws' -> spacing ws' s' ->
  exists ts', reading radix o' s' ts' /\ map pd_value ts = map pd_value ts'.
Proof.
  intros Hr H. induction H as [gap Hg|gap w ws s Hg Hl H IH Hn]; intros o ts R ws' s' o' Hsame H'.
  - inversion Hsame; subst. inversion H' as [gap' Hg'|]; subst.
    exists []. split.
    + rewrite <- (app_nil_r s'). apply reading_gap; [exact Hg'|]. constructor.
    + rewrite <- (app_nil_r gap) in R. apply reading_gap_inv in R; [|exact Hg]. inversion R; [reflexivity|].
      destruct w; [congruence|discriminate].
  - inversion Hsame as [|? w' ? ws2 Hww Hwss]; subst.
    inversion H' as [|gap' ? ? s2 Hg' Hl' H2 Hn']; subst.
    apply reading_gap_inv in R; [|exact Hg].
    destruct Hl as [(c & -> & Hp)|Hw].
    + assert (w' = [c]).
      { destruct Hww as [|(Hx & _)]; [congruence|]. exfalso. destruct Hx as [_ Hx]. inversion Hx as [|? ? [_ Y] _]; contradiction. }
      subst w'. simpl in R. apply reading_punct_inv in R as (t & ts' & -> & Hin & R); [|exact Hp].
      destruct (IH _ _ R ws2 s2 (o' + List.length gap' + 1) Hwss H2) as (ts2 & R2 & Hv).
      exists (mkPositioned t (mkPos (o' + List.length gap') 1) :: ts2). split.
      * apply reading_gap; [exact Hg'|]. simpl. apply rd_punct; assumption.
      * simpl. congruence.
    + assert (Hw' : is_word w') by (apply (same_lexeme_word radix w w' Hr Hww); exact Hw).
      assert (Hends : word_ends s) by (apply (spacing_ends ws s H); exact (Hn Hw)).
      assert (Hends2 : word_ends s2) by (apply (spacing_ends ws2 s2 H2); exact (Hn' Hw')).
      apply reading_word_inv in R as (t & ts' & -> & Ht & R); [|exact Hw|exact Hends].
      destruct (IH _ _ R ws2 s2 (o' + List.length gap' + List.length w') Hwss H2) as (ts2 & R2 & Hv).
      assert (Ht' : word_token radix w' t).
      { destruct Hww as [<-|(_ & Hx & E)]; [exact Ht|]. exact (proj2 (num_word_transport radix w w' t Hr Hw Hx E Ht)). }
      exists (mkPositioned t (mkPos (o' + List.length gap') (List.length w')) :: ts2). split.
      * apply reading_gap; [exact Hg'|]. destruct Hw'. apply rd_word; assumption.
      * simpl. congruence.
Qed.

(** Being a command only depends on the non-blank characters. *)
Definition squeeze (s : str) : str := filter (fun c => negb (is_ascii_whitespace c)) s.
Lemma blank_space c : is_ascii_whitespace c = true -> space c.
Proof.
  unfold is_ascii_whitespace, space. rewrite !orb_true_iff, !N.eqb_eq. lia.
Qed.
Lemma command_line_cons_space c s : space c -> command_line (c :: s) <-> command_line s.
Proof.
  intros Hc. split.
  - intros (pre & body & E & Hp). destruct pre as [|d pre]; simpl in E.
    + injection E as -> _. exfalso. apply slash_not_space. exact Hc.
    + injection E as _ ->. inversion Hp; subst. exists pre, body. auto.
  - intros (pre & body & -> & Hp). exists (c :: pre), body. split; [reflexivity|]. constructor; assumption.
Qed.
Lemma command_line_cons_nospace c s : ~ space c -> command_line (c :: s) <-> c = c_slash.
Proof.
  intros Hc. split.
  - intros (pre & body & E & Hp). destruct pre as [|d pre]; simpl in E.
    + injection E as -> _. reflexivity.
    + injection E as -> _. inversion Hp; subst. contradiction.
  - intros ->. exists [], s. split; [reflexivity|constructor].
Qed.
Lemma command_line_squeeze s : command_line s <-> command_line (squeeze s).
Proof.
  induction s as [|c s IH]; [tauto|]. unfold squeeze; cbn [filter].
  destruct (is_ascii_whitespace c) eqn:E; cbn [negb].
  - rewrite command_line_cons_space by (apply blank_space; exact E). exact IH.
  - destruct (is_whitespace c) eqn:F.
    + apply is_whitespace_space in F. rewrite !command_line_cons_space by exact F. exact IH.
    + assert (~ space c) by (rewrite <- is_whitespace_space; congruence).
      rewrite !command_line_cons_nospace by assumption. tauto.
Qed.
Lemma squeeze_app a b : squeeze (a ++ b) = squeeze a ++ squeeze b.
Proof. apply filter_app. Qed.
Lemma squeeze_gap g : Forall blank g -> squeeze g = [].
Proof. induction 1 as [|c g Hc Hg IH]; [reflexivity|]. apply blank_ws in Hc. unfold squeeze in *; simpl. rewrite Hc. exact IH. Qed.
Lemma squeeze_lexeme w : lexeme w -> squeeze w = w.
Proof.
  intros [(c & -> & Hp)|[_ Hw]].
  - unfold squeeze; simpl. rewrite (punct_not_blank c Hp). reflexivity.
  - induction Hw as [|c w Hc Hw IH]; [reflexivity|]. unfold squeeze in *; simpl.
    apply word_char_iff in Hc as [-> _]. simpl. congruence.
Qed.
Lemma spacing_squeeze ws s : spacing ws s -> squeeze s = List.concat ws.
Proof.
  induction 1 as [gap Hg|gap w ws s Hg Hl H IH Hn]; simpl.
  - apply squeeze_gap; exact Hg.
  - rewrite !squeeze_app, squeeze_gap, squeeze_lexeme, IH by assumption. reflexivity.
Qed.

(** the first lexeme decides; a number word never starts with a space or a slash *)
Lemma number_word_head radix w v : (2 <= radix <= 16)%N -> is_word w -> word_token radix w (TNumber v) ->
  exists c r, w = c :: r /\ ~ space c /\ c <> c_slash.
Proof.
  intros Hr [Hne Hw] Ht. destruct w as [|c r]; [congruence|]. exists c, r. split; [reflexivity|].
  assert (Hnum : numeral radix (c :: r) v).
  { inversion Ht as [|? ? Hin|? ? _ X]; subst; [|exact X].
    exfalso. simpl in Hin. repeat (destruct Hin as [Hin|Hin]; [apply pair_equal_spec in Hin as [_ Hin]; discriminate|]). exact Hin. }
  assert (Hcase : c = c_underscore \/ c = c_dot \/ exists d, has_digit c d).
  { destruct (N.eq_dec c c_underscore) as [->|Hcu]; [auto|]. right.
    destruct Hnum as [_ [(ds & Hd & D & _)|(ip & fp & ids & fds & Hsp & D1 & D2 & _)]];
      rewrite no_us_cons in *; destruct (N.eqb_spec c c_underscore); try contradiction.
    - inversion D as [|? d ? ? [X _]]; subst. right; eauto.
    - destruct ip as [|x ip]; simpl in Hsp; injection Hsp as -> _; [left; reflexivity|].
      inversion D1 as [|? d ? ? [X _]]; subst. right; eauto. }
  destruct Hcase as [->|[->|(d & Hd)]].
  - split; [unfold space; change c_underscore with 95%N; lia|discriminate].
  - split; [unfold space; change c_dot with 46%N; lia|discriminate].
  - apply has_digit_val in Hd as [E Hlt]. split.
    + unfold space. intros [->|Hs]; [vm_compute in E; subst d; vm_compute in Hlt; discriminate|].
      revert E. unfold digit_val. destruct (N.leb_spec 48 c); [lia|].
      destruct (N.leb_spec 97 c); [lia|]. destruct (N.leb_spec 65 c); [lia|]. simpl. intros <-. vm_compute in Hlt. discriminate.
    + intros ->. vm_compute in E; subst d; vm_compute in Hlt; discriminate.
Qed.

Lemma same_concat_command radix ws ws' : (2 <= radix <= 16)%N -> Forall lexeme ws -> Forall lexeme ws' ->
  Forall2 (same_lexeme radix) ws ws' ->
  command_line (List.concat ws) <-> command_line (List.concat ws').
Proof.
  intros Hr L L' H. induction H as [|w w' ws ws' Hw H IH]; [tauto|].
  inversion L as [|? ? Hl Hls]; inversion L' as [|? ? Hl' Hls']; subst. specialize (IH Hls Hls').
  cbn [List.concat]. destruct Hw as [<-|(Hiw & (v & Hv) & E)].
  - clear Hl Hl' L L'. induction w as [|c w IHw]; [exact IH|]. cbn [app].
    destruct (is_whitespace c) eqn:F.
    + apply is_whitespace_space in F. rewrite !command_line_cons_space by exact F. exact IHw.
    + assert (~ space c) by (rewrite <- is_whitespace_space; congruence).
      rewrite !command_line_cons_nospace by assumption. tauto.
  - destruct (number_word_head radix w v Hr Hiw Hv) as (c & r & -> & Hs & Hns).
    destruct (num_word_transport radix _ w' (TNumber v) Hr Hiw) as [Hiw' Hv']; eauto.
    destruct (number_word_head radix w' v Hr Hiw' Hv') as (c' & r' & -> & Hs' & Hns').
    cbn [app]. rewrite !command_line_cons_nospace by assumption. tauto.
Qed.

Lemma spacing_lexemes ws s : spacing ws s -> Forall lexeme ws.
Proof. induction 1; constructor; assumption. Qed.

Lemma spacing_ascii ws s : spacing ws s -> (all_ascii s <-> Forall all_ascii ws).
Proof.
  assert (G : forall g, Forall blank g -> all_ascii g).
  { intros g Hg. eapply Forall_impl; [|exact Hg]. intros c Hc. apply blank_ws, blank_space in Hc. destruct Hc; lia. }
  induction 1 as [gap Hg|gap w ws s Hg Hl H IH Hn].
  - split; [constructor|]. intros _. apply G; exact Hg.
  - unfold all_ascii in *. rewrite !Forall_app. rewrite IH. split.
    + intros (_ & A & B). constructor; assumption.
    + inversion 1; subst. split; [apply G; exact Hg|]. auto.
Qed.
Lemma same_ascii radix w w' : same_lexeme radix w w' -> all_ascii w -> all_ascii w'.
Proof.
  intros [->|(_ & _ & E)] H; [exact H|].
  apply Forall_forall. intros c Hc. destruct (N.eq_dec c c_underscore) as [->|Hcu]; [reflexivity|].
  assert (X : In c (no_underscores w')).
  { apply filter_In. split; [exact Hc|]. apply negb_true_iff, N.eqb_neq. exact Hcu. }
  rewrite <- E in X. apply filter_In in X as [X _]. unfold all_ascii in H. rewrite Forall_forall in H. auto.
Qed.

Lemma tokenize_spacing radix ws s ws' s' ts : (2 <= radix <= 16)%N ->
  spacing ws s -> spacing ws' s' -> Forall2 (same_lexeme radix) ws ws' ->
  tokenize s radix = Ok (PTokens ts) ->
  exists ts', tokenize s' radix = Ok (PTokens ts') /\ map pd_value ts' = map pd_value ts.
Proof.
  intros Hr H H' Hs T. assert (Hro : radix_ok radix = true) by (apply radix_ok_spec; lia).
  apply tokenize_tokens in T as (Ha & Hc & R); [|assumption].
  destruct (spacing_reading radix ws s Hr H 0 ts R ws' s' 0 Hs H') as (ts' & R' & E).
  exists ts'. split; [|auto]. apply tokenize_tokens; [assumption|]. split; [|split; [|exact R']].
  - apply (spacing_ascii ws' s' H'). apply (spacing_ascii ws s H) in Ha.
    clear -Ha Hs. induction Hs; [constructor|]. inversion Ha; subst. constructor; [eapply same_ascii; eauto|auto].
  - intros X. apply Hc. apply command_line_squeeze. rewrite (spacing_squeeze _ _ H).
    apply (same_concat_command radix ws ws' Hr); [eapply spacing_lexemes; eauto|eapply spacing_lexemes; eauto|exact Hs|].
    rewrite <- (spacing_squeeze _ _ H'). apply command_line_squeeze in X. exact X.
Qed.

(** Every accepted line is a spacing of its own lexemes (so the theorem applies to every line). *)
Lemma reading_spacing radix o s ts : reading radix o s ts -> exists ws, spacing ws s.
Proof.
  induction 1 as [o|o c s ts Hc H IH|o c t s ts Hc H IH|o w t s ts Hne Hw He Ht H IH].
  - exists []. constructor. constructor.
  - destruct IH as (ws & IH). exists ws. inversion IH as [gap Hg|gap w ws0 s0 Hg Hl H0 Hn]; subst.
    + constructor. constructor; assumption.
    + apply (sp_cons (c :: gap) w ws0 s0); try assumption. constructor; assumption.
  - destruct IH as (ws & IH). exists ([c] :: ws). apply (sp_cons [] [c] ws s); [constructor| |exact IH|].
    + left. exists c. split; [reflexivity|]. exists t; exact Hc.
    + intros [_ X]. inversion X as [|? ? [_ Y] _]; subst. exfalso. apply Y. exists t; exact Hc.
  - destruct IH as (ws & IH). exists (w :: ws). apply (sp_cons [] w ws s); [constructor| |exact IH|].
    + right. split; assumption.
    + intros; exact He.
Qed.

(** ** C07: integer lists *)

Lemma reading_numbers radix o s ts : reading radix o s ts ->
  forall v p, In (mkPositioned (TNumber v) p) ts -> (0 <= v)%Q /\ Qred v = v.
Proof.
  assert (FN : forall ds, (0 <= frac_value radix ds)%Q).
  { induction ds as [|d ds IH]; [apply Qle_refl|]. cbn [frac_value].
    unfold Qdiv. apply Qmult_le_0_compat.
    - apply (Qplus_le_compat 0 _ 0 _); [|exact IH]. unfold Qle; simpl; lia.
    - apply Qinv_le_0_compat. unfold Qle; simpl; lia. }
  assert (IN : forall ds, (0 <= inject_Z (int_value radix ds))%Q).
  { intros ds. pose proof (int_value_nonneg radix ds). unfold Qle; simpl; lia. }
  induction 1 as [o|o c s ts Hc H IH|o c t s ts Hc H IH|o w t s ts Hne Hw He Ht H IH]; intros v p Hin.
  - destruct Hin.
  - eauto.
  - destruct Hin as [E|Hin]; [|eauto]. exfalso. injection E as -> _.
    simpl in Hc. repeat (destruct Hc as [Hc|Hc]; [apply pair_equal_spec in Hc as [_ Hc]; discriminate|]). exact Hc.
  - destruct Hin as [E|Hin]; [|eauto]. injection E as -> _.
    inversion Ht as [|? ? Hk|? ? _ X]; subst.
    + exfalso. simpl in Hk. repeat (destruct Hk as [Hk|Hk]; [apply pair_equal_spec in Hk as [_ Hk]; discriminate|]). exact Hk.
    + destruct X as [Hq [(ds & _ & _ & E2)|(ip & fp & ids & fds & _ & _ & _ & _ & E2)]].
      * split; [|exact Hq]. rewrite E2. apply IN.
      * split; [|exact Hq]. rewrite E2. apply (Qplus_le_compat 0 _ 0 _); [apply IN|apply FN].
Qed.

Lemma canon_int v z : Qred v = v -> (v == inject_Z z)%Q -> v = inject_Z z.
Proof.
  intros Hq E. rewrite <- Hq. rewrite (Qred_complete _ _ E).
  unfold Qred, inject_Z. pose proof (Z.ggcd_gcd z 1) as G. pose proof (Z.ggcd_correct_divisors z 1) as C.
  destruct (Z.ggcd z 1) as [g [a b]]. simpl in *. rewrite Z.gcd_1_r in G. subst g.
  destruct C as [C1 C2]. rewrite Z.mul_1_l in *. subst. reflexivity.
Qed.
Lemma int_of_canon v : Qden v = 1%positive -> (v == inject_Z (Qnum v))%Q.
Proof. destruct v as [n d]; simpl; intros ->. reflexivity. Qed.

Definition numbers_ok (ts : list (positioned token)) : Prop :=
  forall v p, In (mkPositioned (TNumber v) p) ts -> (0 <= v)%Q /\ Qred v = v.
(** consecutive tokens are in order *)
Definition in_order (ts : list (positioned token)) : Prop :=
  forall i j ti tj, i < j -> nth_error ts i = Some ti -> nth_error ts j = Some tj ->
      p_start (pd_pos ti) + p_width (pd_pos ti) <= p_start (pd_pos tj).

Lemma in_order_tail t ts : in_order (t :: ts) -> in_order ts.
Proof. intros H i j ti tj Hij Ei Ej. apply (H (S i) (S j)); [lia|assumption|assumption]. Qed.
Lemma in_order_two a b ts : in_order (a :: b :: ts) -> p_start (pd_pos a) + p_width (pd_pos a) <= p_start (pd_pos b).
Proof. intros H. apply (H 0 1); [lia|reflexivity|reflexivity]. Qed.

Lemma i64_try_nonneg z : (0 <= z)%Z -> i64_try_from z = if Z.ltb z (2 ^ 63) then Some z else None.
Proof.
  intros Hz. unfold i64_try_from. change i64_min with (-9223372036854775808)%Z. change i64_max with 9223372036854775807%Z.
  change (2 ^ 63)%Z with 9223372036854775808%Z.
  destruct (Z.leb_spec (-9223372036854775808) z), (Z.leb_spec z 9223372036854775807), (Z.ltb_spec z 9223372036854775808); simpl; try reflexivity; lia.
Qed.

Lemma from_span_adjacent q p : p_start q + p_width q <= p_start p ->
  from_span q p = mkPos (p_start q) (p_start p + p_width p - p_start q).
Proof. intros H. unfold from_span. f_equal; lia. Qed.

Lemma collect_ints_spec pr ts :
  numbers_ok ts -> in_order ts ->
  (forall r l, collect_ints pr ts None r = Ok l <-> exists l', l = r ++ l' /\ int_args ts l') /\
  (forall q r l, (forall t ts', ts = t :: ts' -> p_start q + p_width q <= p_start (pd_pos t)) ->
     collect_ints pr ts (Some q) r = Ok l <->
     exists l', l = r ++ l' /\ int_args (mkPositioned (TBin Subtract) q :: ts) l') /\
  (forall neg r p, collect_ints pr ts neg r <> Panic p).
Proof.
  induction ts as [|t ts IH]; intros Hn Ho.
  - split; [|split].
    + intros r l. simpl. split.
      * intros [= <-]. exists []. rewrite app_nil_r. split; [reflexivity|constructor].
      * intros (l' & -> & H). inversion H; subst. rewrite app_nil_r. reflexivity.
    + intros q r l _. simpl. split; [discriminate|]. intros (l' & _ & H). inversion H.
    + intros [q|] r p; simpl; discriminate.
  - destruct IH as (IH1 & IH2 & IH3).
    { intros v p H. apply (Hn v p). right; exact H. }
    { eapply in_order_tail; eauto. }
    destruct t as [tv tp]. cbn [collect_ints pd_value pd_pos].
    destruct tv as [nm| | |v| | |o|o|f];
      try (split; [|split];
           [ intros r l; split; [discriminate|intros (l' & _ & H); inversion H]
           | intros q r l _; split; [discriminate|intros (l' & _ & H); inversion H]
           | intros neg r p; discriminate ]).
    + destruct (Hn v tp (or_introl eq_refl)) as [Hv Hq].
      destruct (Pos.eqb_spec (Qden v) 1) as [Hd|Hd]; cbn [negb].
      * pose proof (int_of_canon v Hd) as Ei.
        assert (Hz : (0 <= Qnum v)%Z) by (unfold Qle in Hv; simpl in Hv; lia).
        rewrite (i64_try_nonneg _ Hz).
        destruct (Z.ltb_spec (Qnum v) (2 ^ 63)) as [Hlt|Hge].
        -- assert (Hneg : forall E, @i64_neg E pr (Qnum v) = Ok (- Qnum v)%Z).
           { intros E. unfold i64_neg. destruct (Z.eqb_spec (Qnum v) i64_min) as [X|_]; [|reflexivity].
             change i64_min with (-9223372036854775808)%Z in X. lia. }
           rewrite Hneg. cbn [bind].
           assert (Hval : forall z, (v == inject_Z z)%Q -> z = Qnum v).
           { intros z Ez. rewrite Ei in Ez. unfold Qeq, inject_Z in Ez; simpl in Ez. lia. }
           split; [|split].
           ++ intros r l. rewrite IH1. split.
              ** intros (l' & -> & H). exists (mkPositioned (Qnum v) tp :: l'). rewrite <- app_assoc.
                 split; [reflexivity|]. apply ia_plain; auto.
              ** intros (l' & -> & H). inversion H as [|? z ? ? l2 Ez Hz2 H2|]; subst.
                 exists l2. rewrite <- app_assoc. rewrite (Hval z Ez). auto.
           ++ intros q r l Hqp. rewrite IH1.
              rewrite from_span_adjacent by (apply (Hqp _ _ eq_refl)). split.
              ** intros (l' & -> & H). eexists. rewrite <- app_assoc.
                 split; [reflexivity|]. cbn [app]. apply ia_negated; auto.
              ** intros (l' & -> & H). inversion H as [| |? z ? ? ? l2 Ez Hz2 H2]; subst.
                 exists l2. rewrite <- app_assoc. rewrite (Hval z Ez). auto.
           ++ intros [q|] r p; apply IH3.
        -- split; [|split].
           ++ intros r l. split; [discriminate|]. intros (l' & _ & H).
              inversion H as [|? z ? ? l2 Ez Hz2 H2|]; subst. rewrite Ei in Ez. unfold Qeq, inject_Z in Ez; simpl in Ez. lia.
           ++ intros q r l _. split; [discriminate|]. intros (l' & _ & H).
              inversion H as [| |? z ? ? ? l2 Ez Hz2 H2]; subst. rewrite Ei in Ez. unfold Qeq, inject_Z in Ez; simpl in Ez. lia.
           ++ intros neg r p; discriminate.
      * assert (Hno : forall z, ~ (v == inject_Z z)%Q).
        { intros z Ez. apply Hd. rewrite (canon_int v z Hq Ez). reflexivity. }
        split; [|split].
        -- intros r l. split; [discriminate|]. intros (l' & _ & H). inversion H; subst. exfalso; eapply Hno; eauto.
        -- intros q r l _. split; [discriminate|]. intros (l' & _ & H). inversion H; subst. exfalso; eapply Hno; eauto.
        -- intros neg r p; discriminate.
    + destruct o;
      try (split; [|split];
           [ intros r l; split; [discriminate|intros (l' & _ & H); inversion H]
           | intros q r l _; split; [discriminate|intros (l' & _ & H); inversion H]
           | intros neg r p; discriminate ]).
      split; [|split].
      * intros r l. apply IH2. intros t ts' ->. apply (in_order_two _ _ _ Ho).
      * intros q r l _. split; [discriminate|]. intros (l' & _ & H). inversion H.
      * intros [q|] r p; [discriminate|apply IH3].
Qed.

Lemma tokenize_int_list_spec pr s radix : radix_ok radix = true ->
  (forall l, tokenize_int_list pr s radix = Ok l <->
    all_ascii s /\ ~ command_line s /\ exists ts, reading radix 0 s ts /\ int_args ts l) /\
  (forall p, tokenize_int_list pr s radix <> Panic p).
Proof.
  intros Hr. unfold tokenize_int_list.
  destruct (tokenize s radix) as [[ts|n a]|e|p] eqn:T.
  - pose proof (tokenize_layout s radix ts Hr T) as (_ & L & _).
    apply tokenize_tokens in T as (Ha & Hc & R); [|assumption].
    destruct (collect_ints_spec pr ts) as (C1 & _ & C3); [intros v p; eapply reading_numbers; eauto|exact L|].
    split; [|intros p; apply C3].
    intros l. rewrite C1. split.
    + intros (l' & -> & H). simpl. eauto.
    + intros (_ & _ & ts' & R' & H). rewrite (reading_unique radix s _ _ Hr R' R) in H. exists l. auto.
  - split; [|discriminate]. intros l. split; [discriminate|]. intros (_ & Hc & _).
    apply tokenize_command in T as (_ & T). apply command_parts_line in T. contradiction.
  - split; [|discriminate]. intros l. split; [discriminate|]. intros (Ha & Hc & ts & R & _).
    assert (X : tokenize s radix = Ok (PTokens ts)) by (apply tokenize_tokens; auto). congruence.
  - exfalso. eapply tokenize_no_panic; eauto.
Qed.

(** ** C08: variable lists *)

Lemma collect_variables_spec ts :
  (forall r l, collect_variables ts r = Ok l <-> exists l', l = r ++ l' /\ variable_args ts l') /\
  (forall r p, collect_variables ts r <> Panic p).
Proof.
  induction ts as [|[tv tp] ts (IH1 & IH2)].
  - split; [|discriminate]. intros r l; simpl. split.
    + intros [= <-]. exists []. rewrite app_nil_r. split; reflexivity.
    + intros (l' & -> & H). unfold variable_args in H. destruct l'; [|discriminate]. rewrite app_nil_r. reflexivity.
  - cbn [collect_variables pd_value pd_pos].
    destruct tv as [nm| | |v| | |o|o|f];
      try (split; [intros r l; split; [discriminate|intros (l' & _ & H); unfold variable_args in H; destruct l'; discriminate]
                  |discriminate]).
    split; [|intros r p; apply IH2]. intros r l. rewrite IH1. split.
    + intros (l' & -> & H). exists (mkPositioned nm tp :: l'). rewrite <- app_assoc. split; [reflexivity|].
      unfold variable_args in *. simpl. congruence.
    + intros (l' & -> & H). unfold variable_args in H. destruct l' as [|[n p] l']; [discriminate|].
      simpl in H. injection H as -> -> H. exists l'. rewrite <- app_assoc. auto.
Qed.

Lemma tokenize_variable_list_spec s :
  (forall l, tokenize_variable_list s = Ok l <->
    all_ascii s /\ ~ command_line s /\ reading 10 0 s (map (fun x => mkPositioned (TVariable (pd_value x)) (pd_pos x)) l)) /\
  (forall p, tokenize_variable_list s <> Panic p).
Proof.
  assert (Hr : radix_ok 10 = true) by reflexivity. unfold tokenize_variable_list.
  destruct (tokenize s 10) as [[ts|n a]|e|p] eqn:T.
  - apply tokenize_tokens in T as (Ha & Hc & R); [|assumption].
    destruct (collect_variables_spec ts) as (C1 & C2). split; [|intros p; apply C2].
    intros l. rewrite C1. unfold variable_args. split.
    + intros (l' & -> & H). simpl. rewrite <- H. auto.
    + intros (_ & _ & R'). rewrite (reading_unique 10 s _ _ Hr R R'). exists l. auto.
  - split; [|discriminate]. intros l. split; [discriminate|]. intros (_ & Hc & _).
    apply tokenize_command in T as (_ & T). apply command_parts_line in T. contradiction.
  - split; [|discriminate]. intros l. split; [discriminate|]. intros (Ha & Hc & R).
    assert (X : tokenize s 10 = Ok (PTokens _)) by (apply tokenize_tokens; eauto). congruence.
  - exfalso. eapply tokenize_no_panic; eauto.
Qed.

(** ** C03, C06: remaining forms *)

Lemma numeral_not_keyword radix w v : (2 <= radix <= 16)%N -> is_word w -> numeral radix w v ->
  word_token radix w (TNumber v).
Proof.
  intros Hr [Hne Hw] Hn.
  assert (Hro : radix_ok radix = true) by (apply radix_ok_spec; lia).
  (* a word with the same digits and one more separator is certainly no keyword *)
  set (w2 := c_underscore :: w).
  assert (Hw2 : is_word w2).
  { split; [discriminate|]. constructor; [|exact Hw]. apply word_char_iff. split; reflexivity. }
  assert (Ht2 : word_token radix w2 (TNumber v)).
  { apply wt_number.
    - intros t Hin. unfold keywords in Hin.
      destruct Hin as [Hin|[Hin|[Hin|[Hin|[]]]]]; apply pair_equal_spec in Hin as [Hin _]; discriminate.
    - unfold numeral in *. change (no_underscores w2) with (no_underscores w). exact Hn. }
  apply (num_word_transport radix w2 w (TNumber v) Hr Hw2); [eauto|reflexivity|exact Ht2].
Qed.
Lemma word_token_number radix w v : word_token radix w (TNumber v) -> numeral radix w v.
Proof.
  intros Ht. inversion Ht as [|? ? Hin|? ? _ X]; subst; [|exact X].
  exfalso. simpl in Hin. repeat (destruct Hin as [Hin|Hin]; [apply pair_equal_spec in Hin as [_ Hin]; discriminate|]). exact Hin.
Qed.
Lemma numeral_chars radix w v : numeral radix w v ->
  Forall (fun c => c = c_underscore \/ c = c_dot \/ exists d, has_digit c d) w.
Proof.
  intros Hn. apply Forall_forall. intros c Hc.
  destruct (N.eq_dec c c_underscore) as [->|Hcu]; [auto|]. right.
  assert (X : In c (no_underscores w)).
  { apply filter_In. split; [exact Hc|]. apply negb_true_iff, N.eqb_neq. exact Hcu. }
  assert (G : forall l ds, digits_of radix l ds -> In c l -> exists d, has_digit c d).
  { intros l ds D. induction D as [|x d l ds [Hx _] D IH]; [intros []|]. intros [->|Hi]; eauto. }
  destruct Hn as [_ [(ds & Hd & D & _)|(ip & fp & ids & fds & Hsp & D1 & D2 & _)]].
  - right; eauto.
  - rewrite Hsp in X. apply in_app_or in X as [X|X]; [right; eauto|].
    destruct X as [X|X]; [left; rewrite <- X; reflexivity|right; eauto].
Qed.
Lemma numeral_ascii radix w v : numeral radix w v -> all_ascii w.
Proof.
  intros H. apply numeral_chars in H. eapply Forall_impl; [|exact H].
  intros c [->|[->|(d & Hd)]]; [reflexivity|reflexivity|].
  apply has_digit_val in Hd as [E Hd]. apply digit_val_ascii. lia.
Qed.

Lemma literal_value w radix v : (2 <= radix <= 16)%N -> is_word w ->
  (tokenize w radix = Ok (PTokens [mkPositioned (TNumber v) (mkPos 0 (List.length w))])
   <-> numeral radix w v).
Proof.
  intros Hr Hw. assert (Hro : radix_ok radix = true) by (apply radix_ok_spec; lia).
  rewrite tokenize_tokens by exact Hro. split.
  - intros (_ & _ & R0). assert (R : reading radix 0 (w ++ []) [mkPositioned (TNumber v) (mkPos 0 (List.length w))])
      by (rewrite app_nil_r; exact R0).
    apply reading_word_inv in R as (t & ts' & E & Ht & R); [|exact Hw|exact I].
    injection E as <- <-. apply word_token_number; exact Ht.
  - intros Hn. pose proof (numeral_not_keyword radix w v Hr Hw Hn) as Ht.
    split; [eapply numeral_ascii; eauto|]. split.
    + destruct (number_word_head radix w v Hr Hw Ht) as (c & r & -> & Hs & Hns).
      rewrite command_line_cons_nospace by exact Hs. exact Hns.
    + destruct Hw. pose proof (rd_word radix 0 w (TNumber v) [] []) as X.
      rewrite app_nil_r in X. apply X; auto; [exact I|constructor].
Qed.
Lemma number_tokens s radix ts v p : (2 <= radix <= 16)%N ->
  tokenize s radix = Ok (PTokens ts) -> In (mkPositioned (TNumber v) p) ts ->
  numeral radix (text_at s p) v.
Proof.
  intros Hr T Hin. assert (Hro : radix_ok radix = true) by (apply radix_ok_spec; lia).
  destruct (tokenize_layout s radix ts Hro T) as (L & _). destruct (L _ Hin) as (_ & _ & [X|(_ & _ & X)]); simpl in X.
  - exfalso. repeat (destruct X as [X|X]; [apply pair_equal_spec in X as [_ X]; discriminate|]). exact X.
  - apply word_token_number; exact X.
Qed.
Lemma command_line_command s radix : all_ascii s -> command_line s ->
  exists name args, tokenize s radix = Ok (PCommand name args).
Proof.
  intros Ha Hc. unfold tokenize. rewrite (proj2 (find_non_ascii_none s 0) Ha).
  pose proof (extract_command s) as X.
  destruct (maybe_extract_command s) as [[ts'|n' a']|]; [destruct X|eauto|contradiction].
Qed.
Lemma int_list_in_range pr s radix l z : (2 <= radix <= 16)%N ->
  tokenize_int_list pr s radix = Ok l -> In z l -> (- 2 ^ 63 <= pd_value z < 2 ^ 63)%Z.
Proof.
  intros Hr H. apply tokenize_int_list_spec in H as (_ & _ & ts & _ & H); [|apply radix_ok_spec; lia].
  induction H as [|v y p ts l _ Hy H IH|v y p q ts l _ Hy H IH]; [intros []| |];
    (intros [<-|Hin]; [simpl; lia|auto]).
Qed.
