(** ProofsPosition.v -- lemmas about src/position.rs. *)
From Verif Require Import Base Position SpecLex.
Local Open Scope nat_scope.

Lemma blank_ws c : blank c <-> is_ascii_whitespace c = true.
Proof.
  unfold blank, is_ascii_whitespace. rewrite !orb_true_iff, !N.eqb_eq. simpl. intuition congruence.
Qed.
Lemma not_blank_ws c : ~ blank c <-> is_ascii_whitespace c = false.
Proof. rewrite blank_ws. destruct (is_ascii_whitespace c); intuition congruence. Qed.

Lemma from_span_least a b :
  covers (from_span a b) a /\ covers (from_span a b) b /\
  forall q, covers q a -> covers q b -> covers q (from_span a b).
Proof.
  unfold covers, from_span, p_end. destruct a as [s1 w1], b as [s2 w2]; simpl.
  repeat split; try lia.
Qed.

Lemma from_span_ends a b :
  p_start (from_span a b) = Nat.min (p_start a) (p_start b) /\
  p_end (from_span a b) = Nat.max (p_end a) (p_end b).
Proof. unfold from_span, p_end. destruct a as [s1 w1], b as [s2 w2]; simpl. lia. Qed.

Lemma from_between_lr a b :
  p_end a <= p_start b -> from_between a b = mkPos (p_end a) (p_start b - p_end a).
Proof.
  unfold from_between, p_end. destruct a as [s1 w1], b as [s2 w2]; simpl. intros H.
  repeat match goal with
  | |- context [Nat.leb ?x ?y] => destruct (Nat.leb_spec x y); simpl; try lia
  end; f_equal; lia.
Qed.
Lemma from_between_rl a b :
  p_end b <= p_start a -> from_between a b = mkPos (p_end b) (p_start a - p_end b).
Proof.
  unfold from_between, p_end. destruct a as [s1 w1], b as [s2 w2]; simpl. intros H.
  repeat match goal with
  | |- context [Nat.leb ?x ?y] => destruct (Nat.leb_spec x y); simpl; try lia
  end; f_equal; lia.
Qed.

Lemma find_non_ws_none s : find_non_ws s = None -> Forall (fun c => is_ascii_whitespace c = true) s.
Proof.
  induction s as [|c s IH]; simpl; [constructor|].
  destruct (is_ascii_whitespace c) eqn:E; [|discriminate].
  destruct (find_non_ws s); [discriminate|]. intros _. constructor; auto.
Qed.
Lemma find_non_ws_some s i : find_non_ws s = Some i ->
  exists pre c post, s = pre ++ c :: post /\ length pre = i /\
    Forall (fun c => is_ascii_whitespace c = true) pre /\ is_ascii_whitespace c = false.
Proof.
  revert i; induction s as [|c s IH]; simpl; intros i; [discriminate|].
  destruct (is_ascii_whitespace c) eqn:E.
  - destruct (find_non_ws s) as [j|] eqn:F; [|discriminate]. simpl. intros [= <-].
    destruct (IH j eq_refl) as (pre & d & post & -> & <- & Hp & Hd).
    exists (c :: pre), d, post. repeat split; auto.
  - intros [= <-]. exists [], c, s. repeat split; auto.
Qed.
Lemma find_non_ws_app pre s : Forall (fun c => is_ascii_whitespace c = true) pre ->
  find_non_ws (pre ++ s) = option_map (Nat.add (length pre)) (find_non_ws s).
Proof.
  induction 1 as [|c pre Hc Hp IH]; simpl.
  - destruct (find_non_ws s); reflexivity.
  - rewrite Hc, IH. destruct (find_non_ws s); reflexivity.
Qed.

Definition trimmed_ws (x y : positioned str) : Prop :=
  exists pre post,
    pd_value x = pre ++ pd_value y ++ post /\
    Forall (fun c => is_ascii_whitespace c = true) (pre ++ post) /\
    (forall c rest, pd_value y = c :: rest -> is_ascii_whitespace c = false) /\
    (forall c rest, pd_value y = rest ++ [c] -> is_ascii_whitespace c = false) /\
    (pd_value y <> [] -> p_start (pd_pos y) = p_start (pd_pos x) + length pre) /\
    (pd_value y = [] -> p_start (pd_pos y) = p_start (pd_pos x)) /\
    p_width (pd_pos y) = length (pd_value y).
Lemma ptrim_trimmed_ws {E} (x : positioned str) : exists y, ptrim (E := E) x = Ok y /\ trimmed_ws x y.
Proof.
  destruct x as [v [st w]]. unfold ptrim; simpl.
  destruct (find_non_ws v) as [i|] eqn:F.
  - destruct (find_non_ws_some _ _ F) as (pre & c & post & -> & <- & Hp & Hc).
    destruct (find_non_ws (rev (pre ++ c :: post))) as [b|] eqn:G.
    + destruct (find_non_ws_some _ _ G) as (rp & d & rq & Hr & <- & Hrp & Hd).
      eexists; split; [reflexivity|].
      assert (Hs : pre ++ c :: post = rev rq ++ d :: rev rp).
      { rewrite <- (rev_involutive (pre ++ c :: post)), Hr, rev_app_distr. simpl.
        rewrite <- app_assoc. reflexivity. }
      assert (Hlen : length (pre ++ c :: post) = length rq + 1 + length rp).
      { rewrite Hs, app_length. simpl. rewrite !rev_length. lia. }
      set (k := length (pre ++ c :: post) - length rp - length pre).
      assert (Hk : length pre <= length rq).
      { destruct (Nat.le_gt_cases (length pre) (length rq)); [assumption|exfalso].
        assert (nth_error (pre ++ c :: post) (length rq) = Some d).
        { rewrite Hs, nth_error_app2; rewrite rev_length; [|lia].
          rewrite Nat.sub_diag. reflexivity. }
        rewrite nth_error_app1 in H0 by lia.
        apply nth_error_In in H0. rewrite Forall_forall in Hp. rewrite (Hp _ H0) in Hd. discriminate. }
      exists pre, (rev rp).
      assert (Hv : firstn k (skipn (length pre) (pre ++ c :: post)) ++ rev rp = c :: post).
      { rewrite skipn_app, skipn_all, Nat.sub_diag. cbn [app skipn].
        rewrite <- (firstn_skipn k (c :: post)) at 2. f_equal.
        assert (Hkk : k = length rq + 1 - length pre) by (unfold k; lia).
        assert (Hsk : skipn (length pre + k) (pre ++ c :: post) = skipn k (c :: post)).
        { rewrite skipn_app. rewrite skipn_all2 by lia. simpl.
          f_equal. lia. }
        rewrite <- Hsk, Hs. rewrite skipn_app, rev_length.
        replace (length pre + k - length rq) with 1 by lia.
        rewrite skipn_all2 by (rewrite rev_length; lia). reflexivity. }
      rewrite skipn_app, skipn_all, Nat.sub_diag in *. cbn [app skipn] in *.
      fold k. 
      assert (Hk1 : 0 < k) by (unfold k; lia).
      cbn [pd_value pd_pos p_start p_width].
      repeat split.
      * rewrite Hv. reflexivity.
      * apply Forall_app; split; [assumption|]. apply Forall_rev; assumption.
      * intros e rest He. destruct k; [lia|]. simpl in He. injection He as <- _. assumption.
      * intros e rest He.
        assert (Hx : nth_error (c :: post) (length rest) = Some e).
        { rewrite <- Hv, He, <- app_assoc, nth_error_app2, Nat.sub_diag by lia. reflexivity. }
        assert (Hy : nth_error (pre ++ c :: post) (length pre + length rest) = Some e).
        { rewrite nth_error_app2 by lia. rewrite <- Hx. f_equal. lia. }
        assert (Hlr : length pre + length rest = length rq).
        { apply (f_equal (@length _)) in Hv. apply (f_equal (@length _)) in He.
          rewrite !app_length in *. simpl in *. rewrite rev_length in Hv. lia. }
        rewrite Hs, nth_error_app2, rev_length, Hlr, Nat.sub_diag in Hy by (rewrite rev_length; lia).
        injection Hy as <-. assumption.
      * intros He. apply (f_equal (@length _)) in He. rewrite firstn_length in He. simpl in He.
        destruct k; simpl in He; lia.
    + exfalso. apply find_non_ws_none in G. rewrite Forall_forall in G.
      specialize (G c). rewrite <- in_rev in G. rewrite G in Hc; [discriminate|].
      apply in_or_app. right; left; reflexivity.
  - eexists; split; [reflexivity|].
    exists v, []. simpl. rewrite !app_nil_r. apply find_non_ws_none in F.
    repeat split; auto; try discriminate.
    + intros c rest H. destruct rest; discriminate.
    + intros []; reflexivity.
Qed.
Lemma ptrim_trimmed {E} (x : positioned str) : exists y, ptrim (E := E) x = Ok y /\ trimmed x y.
Proof.
  destruct (ptrim_trimmed_ws (E := E) x) as (y & Hy & pre & post & H1 & H2 & H3 & H4 & H5).
  exists y. split; [exact Hy|]. exists pre, post. split; [exact H1|]. split.
  { eapply Forall_impl; [|exact H2]. intros c. apply blank_ws. }
  split; [intros c rest K; apply not_blank_ws; eauto|]. split; [intros c rest K; apply not_blank_ws; eauto|exact H5].
Qed.
