(** ProofsEditor3.v -- parenthesis jump and the two displays. *)
From Verif Require Import Base Position Num TokenTypes Errors Token Operations SavedData Variables InputHistory SyntaxTree Commands Calculate Editor SpecEditor ProofsEditor.
From Coq Require Import String.
Local Open Scope nat_scope.
Local Open Scope list_scope.

(** ** Depth *)
Definition sumz (l : list Z) : Z := fold_right Z.add 0%Z l.
Lemma sumz_app a b : sumz (a ++ b) = (sumz a + sumz b)%Z.
Proof. unfold sumz. induction a as [|x a IH]; cbn; [reflexivity|]. rewrite IH. lia. Qed.
Lemma firstn_plus {A} (l : list A) a b : firstn (a + b) l = firstn a l ++ firstn b (skipn a l).
Proof. revert l. induction a as [|a IH]; intros [|x l]; cbn; try reflexivity; [destruct b; reflexivity|]. rewrite IH. reflexivity. Qed.
Lemma skipn_plus {A} (l : list A) a b : skipn a (skipn b l) = skipn (b + a) l.
Proof. revert l. induction b as [|b IH]; intros [|x l]; cbn; try reflexivity; [destruct a; reflexivity|]. apply IH. Qed.
(** depth adds up over adjacent stretches *)
Lemma depth_split line i j k : i <= j -> j < k -> depth line i k = (depth line i j + depth line (S j) k)%Z.
Proof.
  intros H1 H2. unfold depth. change (fold_right Z.add 0%Z) with sumz.
  replace (S k - i) with ((S j - i) + (S k - S j)) by lia. rewrite firstn_plus, map_app, sumz_app, skipn_plus.
  replace (i + (S j - i)) with (S j) by lia. reflexivity.
Qed.
Lemma skipn_nth {A} (l : list A) i a : nth_error l i = Some a -> skipn i l = a :: skipn (S i) l.
Proof. revert i. induction l as [|x l IH]; intros [|i] H; cbn in *; try discriminate. - congruence. - apply IH. exact H. Qed.
Lemma depth_one line i a : nth_error line i = Some a -> depth line i i = depth_of a.
Proof. intros H. unfold depth. replace (S i - i) with 1 by lia. rewrite (skipn_nth _ _ _ H). cbn. lia. Qed.

Lemma pair_at_back line i j : pair_at line i j <->
  i < j /\ j < List.length line /\ nth_error line i = Some c_open /\ nth_error line j = Some c_close /\
  depth line i j = 0%Z /\ forall k, i < k -> k <= j -> (depth line k j < 0)%Z.
Proof.
  unfold pair_at. split; intros (H1 & H2 & H3 & H4 & H5 & H6); repeat split; auto; intros k K1 K2.
  - specialize (H6 (pred k) ltac:(lia) ltac:(lia)). pose proof (depth_split line i (pred k) j ltac:(lia) ltac:(lia)) as D.
    replace (S (pred k)) with k in D by lia. lia.
  - specialize (H6 (S k) ltac:(lia) ltac:(lia)). pose proof (depth_split line i k j K1 K2). lia.
Qed.

Lemma nth_ok_some {E A} (l : list A) i : i < List.length l -> exists a, @nth_ok E A l i = Ok a /\ nth_error l i = Some a.
Proof. intros H. unfold nth_ok. destruct (nth_error l i) as [a|] eqn:E1; [eauto|]. apply nth_error_None in E1. lia. Qed.

Definition inv_fwd (line : str) (i pos count : nat) : Prop :=
  pos = i /\ count = 0 \/
  i < pos /\ Z.of_nat count = depth line i (pred pos) /\ forall k, i <= k -> k < pos -> (0 < depth line i k)%Z.
Lemma search_fwd line i : nth_error line i = Some c_open -> forall fuel pos count,
  List.length line - pos < fuel -> pos < List.length line -> inv_fwd line i pos count ->
  exists r, paren_search fuel line false c_open c_close pos count = Ok r /\
    match r with Some j => pair_at line i j | None => forall j, ~ pair_at line i j end.
Proof.
  intros Ho. induction fuel as [|fuel IH]; intros pos count Hf Hp Hi; [lia|]. cbn [paren_search].
  destruct (@nth_ok_some runtime_error _ line pos Hp) as (b & Eb & Nb). rewrite Eb. cbn [bind].
  assert (D : exists count', (if N.eqb b c_open then Ok (count + 1) else if N.eqb b c_close then if Nat.eqb count 0 then Panic ArithOverflow else Ok (count - 1) else Ok count)
    = @Ok runtime_error nat count' /\ Z.of_nat count' = depth line i pos /\ i <= pos).
  { destruct Hi as [[-> ->]|(Hlt & Hc & Hpos)].
    - assert (b = c_open) by congruence. subst b. rewrite N.eqb_refl. exists 1. split; [reflexivity|]. split; [|lia].
      rewrite (depth_one _ _ _ Ho). reflexivity.
    - pose proof (Hpos (pred pos) ltac:(lia) ltac:(lia)) as P.
      pose proof (depth_split line i (pred pos) pos ltac:(lia) ltac:(lia)) as DS. replace (S (pred pos)) with pos in DS by lia.
      rewrite (depth_one _ _ _ Nb) in DS. unfold depth_of in DS.
      destruct (N.eqb b c_open); [exists (count + 1); split; [reflexivity|lia]|].
      destruct (N.eqb b c_close); [|exists count; split; [reflexivity|lia]].
      destruct (Nat.eqb_spec count 0); [lia|]. exists (count - 1). split; [reflexivity|lia]. }
  destruct D as (count' & -> & Dc & Hip). cbn [bind].
  assert (Pall : count' <> 0 -> forall k, i <= k -> k < S pos -> (0 < depth line i k)%Z).
  { intros N0 k K1 K2. destruct (Nat.eq_dec k pos) as [->|]; [lia|]. destruct Hi as [[-> _]|(_ & _ & Hpos)]; [lia|]. apply Hpos; lia. }
  destruct (Nat.eqb_spec count' 0) as [Z0|N0].
  - exists (Some pos). split; [reflexivity|]. destruct Hi as [[-> ->]|(Hlt & Hc & Hpos)].
    + assert (b = c_open) by congruence. subst b. rewrite (depth_one _ _ _ Ho) in Dc. cbn in Dc. lia.
    + pose proof (Hpos (pred pos) ltac:(lia) ltac:(lia)) as P.
      pose proof (depth_split line i (pred pos) pos ltac:(lia) ltac:(lia)) as DS. replace (S (pred pos)) with pos in DS by lia.
      rewrite (depth_one _ _ _ Nb) in DS. unfold depth_of in DS.
      unfold pair_at. repeat split; auto; try lia. destruct (N.eqb b c_open); [lia|]. destruct (N.eqb_spec b c_close); [congruence|lia].
  - cbn [andb negb]. destruct (Nat.leb_spec (List.length line) (pos + 1)).
    + exists None. split; [reflexivity|]. intros j (J1 & J2 & J3 & J4 & J5 & J6). specialize (Pall N0 j ltac:(lia) ltac:(lia)). lia.
    + apply IH; [lia|lia|]. right. split; [lia|]. replace (pred (pos + 1)) with pos by lia. split; [exact Dc|].
      intros k K1 K2. apply Pall; auto. lia.
Qed.

Definition inv_back (line : str) (j pos count : nat) : Prop :=
  pos = j /\ count = 0 \/
  pos < j /\ Z.of_nat count = (- depth line (S pos) j)%Z /\ forall k, pos < k -> k <= j -> (depth line k j < 0)%Z.
Lemma search_back line j : nth_error line j = Some c_close -> forall fuel pos count,
  pos < fuel -> pos < List.length line -> inv_back line j pos count ->
  exists r, paren_search fuel line true c_close c_open pos count = Ok r /\
    match r with Some i => pair_at line i j | None => forall i, ~ pair_at line i j end.
Proof.
  intros Ho. assert (Hjl : j < List.length line) by (apply nth_error_Some; congruence).
  induction fuel as [|fuel IH]; intros pos count Hf Hp Hi; [lia|]. cbn [paren_search].
  destruct (@nth_ok_some runtime_error _ line pos Hp) as (b & Eb & Nb). rewrite Eb. cbn [bind].
  assert (D : exists count', (if N.eqb b c_close then Ok (count + 1) else if N.eqb b c_open then if Nat.eqb count 0 then Panic ArithOverflow else Ok (count - 1) else Ok count)
    = @Ok runtime_error nat count' /\ Z.of_nat count' = (- depth line pos j)%Z /\ pos <= j).
  { destruct Hi as [[-> ->]|(Hlt & Hc & Hpos)].
    - assert (b = c_close) by congruence. subst b. rewrite N.eqb_refl. exists 1. split; [reflexivity|]. split; [|lia].
      rewrite (depth_one _ _ _ Ho). reflexivity.
    - pose proof (Hpos (S pos) ltac:(lia) ltac:(lia)) as P.
      pose proof (depth_split line pos pos j ltac:(lia) ltac:(lia)) as DS.
      rewrite (depth_one _ _ _ Nb) in DS. unfold depth_of in DS.
      destruct (N.eqb_spec b c_close) as [->|]; [exists (count + 1); split; [reflexivity|]; change (N.eqb c_close c_open) with false in DS; cbv iota in DS; lia|].
      destruct (N.eqb b c_open); [|exists count; split; [reflexivity|lia]].
      destruct (Nat.eqb_spec count 0); [lia|]. exists (count - 1). split; [reflexivity|lia]. }
  destruct D as (count' & -> & Dc & Hip). cbn [bind].
  assert (Pall : count' <> 0 -> forall k, pos <= k -> k <= j -> (depth line k j < 0)%Z).
  { intros N0 k K1 K2. destruct (Nat.eq_dec k pos) as [->|]; [lia|]. destruct Hi as [[-> _]|(_ & _ & Hpos)]; [lia|]. apply Hpos; lia. }
  destruct (Nat.eqb_spec count' 0) as [Z0|N0].
  - exists (Some pos). split; [reflexivity|]. destruct Hi as [[-> ->]|(Hlt & Hc & Hpos)].
    + assert (b = c_close) by congruence. subst b. rewrite (depth_one _ _ _ Ho) in Dc. cbn in Dc. lia.
    + pose proof (Hpos (S pos) ltac:(lia) ltac:(lia)) as P.
      pose proof (depth_split line pos pos j ltac:(lia) ltac:(lia)) as DS.
      rewrite (depth_one _ _ _ Nb) in DS. unfold depth_of in DS.
      apply pair_at_back. repeat split; auto; try lia. destruct (N.eqb_spec b c_open); [congruence|]. destruct (N.eqb b c_close); lia.
  - cbn [andb negb]. destruct (Nat.eqb_spec pos 0).
    + exists None. split; [reflexivity|]. intros i J. apply pair_at_back in J as (J1 & J2 & J3 & J4 & J5 & J6).
      specialize (Pall N0 i ltac:(lia) ltac:(lia)). lia.
    + apply IH; [lia|lia|]. right. split; [lia|]. replace (S (pos - 1)) with pos by lia. split; [exact Dc|].
      intros k K1 K2. apply Pall; auto. lia.
Qed.

Lemma pair_unique line i j j' : pair_at line i j -> pair_at line i j' -> j = j'.
Proof.
  intros (A1 & A2 & A3 & A4 & A5 & A6) (B1 & B2 & B3 & B4 & B5 & B6).
  destruct (Nat.lt_trichotomy j j') as [H|[H|H]]; [|exact H|].
  - specialize (B6 j ltac:(lia) H). lia.
  - specialize (A6 j' ltac:(lia) H). lia.
Qed.
Lemma pair_unique_back line i i' j : pair_at line i j -> pair_at line i' j -> i = i'.
Proof.
  intros A B. apply pair_at_back in A as (A1 & A2 & A3 & A4 & A5 & A6). apply pair_at_back in B as (B1 & B2 & B3 & B4 & B5 & B6).
  destruct (Nat.lt_trichotomy i i') as [H|[H|H]]; [|exact H|].
  - specialize (A6 i' H ltac:(lia)). lia.
  - specialize (B6 i H ltac:(lia)). lia.
Qed.
Lemma open_close : c_open <> c_close. Proof. discriminate. Qed.
Lemma partners_unique line p q q' : partners line p q -> partners line p q' -> q = q'.
Proof.
  intros [A|A] [B|B].
  - eapply pair_unique; eassumption.
  - destruct A as (_ & _ & A & _), B as (_ & _ & _ & B & _). destruct open_close. congruence.
  - destruct A as (_ & _ & _ & A & _), B as (_ & _ & B & _). destruct open_close. congruence.
  - eapply pair_unique_back; eassumption.
Qed.

Lemma paren_jump_partner line cursor : exists r, paren_jump line cursor = Ok r /\
  forall q, r = Some q <-> partners line (Nat.min cursor (List.length line - 1)) q.
Proof.
  unfold paren_jump. destruct (Nat.ltb_spec (List.length line) 2) as [H|H].
  { exists None. split; [reflexivity|]. intros q. split; [discriminate|]. intros [(A & B & _)|(A & B & _)]; lia. }
  set (pos := if Nat.leb (List.length line) cursor then List.length line - 1 else cursor).
  assert (Ep : pos = Nat.min cursor (List.length line - 1)) by (unfold pos; destruct (Nat.leb_spec (List.length line) cursor); lia).
  rewrite <- Ep. assert (Hp : pos < List.length line) by lia. clearbody pos. clear Ep.
  destruct (@nth_ok_some runtime_error _ line pos Hp) as (b & Eb & Nb). rewrite Eb. cbn [bind].
  destruct (N.eqb_spec b c_open) as [->|No].
  - destruct (search_fwd line pos Nb (S (List.length line)) pos 0) as (r & Er & R); [lia|lia|left; auto|].
    exists r. split; [exact Er|]. intros q. split.
    + intros ->. left. exact R.
    + intros [Q|Q]; [|destruct Q as (_ & _ & _ & Q & _); destruct open_close; congruence].
      destruct r as [j|]; [f_equal; eapply pair_unique; eassumption|destruct (R q Q)].
  - destruct (N.eqb_spec b c_close) as [->|Nc].
    + destruct (search_back line pos Nb (S (List.length line)) pos 0) as (r & Er & R); [lia|lia|left; auto|].
      exists r. split; [exact Er|]. intros q. split.
      * intros ->. right. exact R.
      * intros [Q|Q]; [destruct Q as (_ & _ & Q & _); destruct open_close; congruence|].
        destruct r as [j|]; [f_equal; eapply pair_unique_back; eassumption|destruct (R q Q)].
    + exists None. split; [reflexivity|]. intros q. split; [discriminate|].
      intros [(_ & _ & Q & _)|(_ & _ & _ & Q & _)]; congruence.
Qed.
Lemma partners_in line p q : partners line p q -> p < List.length line /\ q < List.length line.
Proof. intros [(A & B & _)|(A & B & _)]; lia. Qed.
Lemma paren_jump_back line p q : p < List.length line -> paren_jump line p = Ok (Some q) ->
  q < List.length line /\ paren_jump line q = Ok (Some p).
Proof.
  intros Hp E. destruct (paren_jump_partner line p) as (r & Er & R). rewrite E in Er. injection Er as <-.
  pose proof (proj1 (R q) eq_refl) as P. replace (Nat.min p (List.length line - 1)) with p in P by lia.
  destruct (partners_in _ _ _ P) as [_ Hq]. split; [exact Hq|].
  destruct (paren_jump_partner line q) as (r' & Er' & R'). rewrite Er'. f_equal. apply R'.
  replace (Nat.min q (List.length line - 1)) with q by lia. destruct P; [right|left]; assumption.
Qed.

(** ** The scrolling display *)
Lemma next_offset_ok cursor offset window len : 2 <= window -> cursor <= len ->
  let off := next_scroll_offset cursor offset window len in off <= cursor /\ cursor < off + window.
Proof.
  intros Hw Hc. cbv zeta. unfold next_scroll_offset.
  destruct (Nat.ltb_spec cursor offset); cbn [orb]; [|destruct (Nat.ltb_spec (offset + window) (cursor + 1)); cbv iota; [|lia]].
  all: destruct (Nat.ltb_spec len window); [lia|];
    assert (D : window / 3 * 2 < window) by (pose proof (Nat.div_mod window 3 ltac:(lia)); lia);
    set (rel := Nat.max 1 (Nat.min window (window / 3 * 2))); assert (1 <= rel < window) by lia; clearbody rel;
    destruct (Nat.ltb_spec cursor rel); lia.
Qed.
Lemma next_offset_one cursor offset len : cursor <= len ->
  let off := next_scroll_offset cursor offset 1 len in off <= cursor /\ cursor <= off + 1.
Proof.
  intros Hc. cbv zeta. unfold next_scroll_offset.
  destruct (Nat.ltb_spec cursor offset); cbn [orb]; [|destruct (Nat.ltb_spec (offset + 1) (cursor + 1)); cbv iota; [|lia]].
  all: destruct (Nat.ltb_spec len 1); [lia|]; change (Nat.max 1 (Nat.min 1 (1 / 3 * 2))) with 1; destruct (Nat.ltb_spec cursor 1); lia.
Qed.
Lemma slice_ok {E} (s : str) a b : a <= b -> b <= List.length s -> @slice E s a b = Ok (firstn (b - a) (skipn a s)).
Proof. intros H1 H2. unfold slice. rewrite (proj2 (Nat.leb_le _ _) H1), (proj2 (Nat.leb_le _ _) H2). reflexivity. Qed.
Lemma u16_ok n : fits_u16 n -> u16_try_from n = Ok n.
Proof. unfold fits_u16. intros H. unfold u16_try_from. destruct (N.ltb_spec (N.of_nat n) 65536); [reflexivity|lia]. Qed.
Lemma scrolling_ok pr cols cursor offset line : 5 <= cols -> fits_u16 cols -> cursor <= List.length line ->
  exists off opener part closer, display_scrolling pr cols cursor offset line =
    Ok (off, [MoveToColumn 0; ClearCurrentLine; Print opener; Print part; Print closer; MoveToColumn (2 + (cursor - off))]) /\
  part = firstn (cols - 4) (skipn off line) /\ off <= cursor /\ (6 <= cols -> cursor < off + (cols - 4)) /\ cursor <= off + (cols - 4) /\
  opener = (if Nat.eqb off 0 then lit "# " else lit "< ") /\
  closer = (if Nat.ltb (off + (cols - 4)) (List.length line) then lit " >" else []).
Proof.
  intros H5 Hu Hc. unfold display_scrolling. cbv zeta.
  change (List.length SCROLL_LEFT_INDICATOR_STR + List.length SCROLL_RIGHT_INDICATOR_STR) with 4.
  destruct (Nat.leb_spec cols 4); [lia|]. set (w := cols - 4).
  set (off := next_scroll_offset cursor offset w (List.length line)).
  assert (B : off <= cursor /\ (6 <= cols -> cursor < off + w) /\ cursor <= off + w).
  { destruct (Nat.eq_dec cols 5) as [->|].
    - pose proof (next_offset_one cursor offset (List.length line) Hc) as P. cbv zeta in P. unfold off, w. change (5 - 4) with 1. lia.
    - pose proof (next_offset_ok cursor offset w (List.length line) ltac:(lia) Hc) as P. cbv zeta in P. fold off in P. lia. }
  destruct B as (B1 & B2 & B3). clearbody off.
  destruct (Nat.ltb_spec cursor off); [lia|].
  match goal with |- context [u16_try_from ?n] => replace (u16_try_from n) with (@Ok runtime_error nat (2 + (cursor - off))) end.
  2: { symmetry. replace (2 + (cursor - off)) with (cursor - off + 2) by lia.
       destruct (Nat.eqb off 0); apply (u16_ok (cursor - off + 2)); unfold fits_u16 in *; lia. }
  cbn [bind].
  destruct (Nat.ltb_spec (off + w) (List.length line)) as [Hr|Hr].
  - rewrite slice_ok by lia. cbn [bind]. eexists off, _, _, _. split; [reflexivity|]. replace (off + w - off) with w by lia. repeat split; auto. destruct (Nat.ltb_spec (off + w) (List.length line)); [reflexivity|lia].
  - rewrite slice_ok by lia. cbn [bind]. eexists off, _, _, _. split; [reflexivity|].
    split; [rewrite !firstn_all2; auto; rewrite skipn_length; lia|]. repeat split; auto. destruct (Nat.ltb_spec (off + w) (List.length line)); [lia|reflexivity].
Qed.

(** ** The wrapped display *)
Lemma add_text_last rows r s : add_text (rows ++ [r]) s = rows ++ [r ++ s].
Proof.
  induction rows as [|x rows IH]; [reflexivity|]. cbn [app]. destruct (rows ++ [r]) as [|y l] eqn:E; [destruct rows; discriminate E|].
  cbn [add_text]. change (x :: (match l with [] => [y ++ s] | _ :: _ => y :: add_text l s end)) with (x :: add_text (y :: l) s). rewrite IH. reflexivity.
Qed.
Definition newline_of (alternate : bool) : list tcmd := if alternate then [MoveToNextLine 1] else [Print [c_newline]; MoveToColumn 0].
Lemma newline_rows alt rows : fold_left print_to (newline_of alt) rows = rows ++ [[]].
Proof. destruct alt; reflexivity. Qed.
Lemma print_text rows r s : ~ In c_newline s -> print_to (rows ++ [r]) (Print s) = rows ++ [r ++ s].
Proof.
  intros H. cbn [print_to]. destruct (str_eqb s [c_newline]) eqn:E; [|apply add_text_last].
  exfalso. destruct s as [|c [|d s]]; cbn in E; try discriminate E.
  - destruct (N.eqb_spec c c_newline) as [->|]; [|discriminate E]. apply H. left. reflexivity.
  - rewrite Bool.andb_comm in E. discriminate E.
Qed.

(** the chunks of the line from position i *)
Fixpoint chunks (fuel av : nat) (s : str) : list str :=
  match fuel, s with
  | S f, _ :: _ => firstn av s :: chunks f av (skipn av s)
  | _, _ => []
  end.
Lemma chunks_concat av : 0 < av -> forall fuel s, List.length s <= fuel -> List.concat (chunks fuel av s) = s.
Proof.
  intros Ha. induction fuel as [|fuel IH]; intros [|c s] H; try reflexivity; [cbn in H; lia|].
  cbn [chunks List.concat]. rewrite IH; [apply firstn_skipn|]. rewrite skipn_length. cbn [List.length] in *. lia.
Qed.
Lemma chunks_short av fuel : forall s c, In c (chunks fuel av s) -> List.length c <= av.
Proof.
  induction fuel as [|fuel IH]; intros [|x s] c H; try destruct H as [<-|H]; try (destruct H; fail).
  - rewrite firstn_length. lia.
  - eapply IH. exact H.
Qed.
Lemma chunks_folded av : 0 < av -> forall fuel s, s <> [] -> List.length s <= fuel -> folded av s (chunks fuel av s).
Proof.
  intros Ha. induction fuel as [|fuel IH]; intros s Hs H; [destruct s; [congruence|cbn in H; lia]|].
  assert (E : chunks (S fuel) av s = firstn av s :: chunks fuel av (skipn av s)) by (destruct s; [congruence|reflexivity]). rewrite E.
  assert (Hl : List.length s <> 0) by (destruct s; [congruence|cbn; lia]).
  destruct (skipn av s) as [|y r] eqn:Es.
  - apply (f_equal (@List.length _)) in Es. rewrite skipn_length in Es. cbn in Es. rewrite firstn_all2 by lia. exists [], s. replace (chunks fuel av []) with (@nil str) by (destruct fuel; reflexivity).
    cbn. rewrite app_nil_r. repeat split; auto; lia.
  - assert (Hy : List.length (y :: r) = List.length s - av) by (rewrite <- Es, skipn_length; reflexivity). cbn in Hy. rewrite <- Es.
    destruct (IH (skipn av s)) as (front & last & E1 & E2 & E3 & E4 & E5); [rewrite Es; discriminate|rewrite skipn_length; lia|].
    exists (firstn av s :: front), last. rewrite E1. split; [reflexivity|]. rewrite <- E1. cbn [List.concat]. rewrite E2. split; [apply firstn_skipn|].
    split; [constructor; [rewrite firstn_length; lia|exact E3]|]. split; [exact E4|]. intros X. apply E5 in X. rewrite Es in X. discriminate X.
Qed.
Lemma nth_firstn {A} (l : list A) n k : k < n -> nth_error (firstn n l) k = nth_error l k.
Proof. revert n k. induction l as [|x l IH]; intros [|n] [|k] H; cbn; try reflexivity; try lia. apply IH. lia. Qed.
Lemma nth_skipn {A} (l : list A) n k : nth_error (skipn n l) k = nth_error l (n + k).
Proof. revert n. induction l as [|x l IH]; intros [|n]; cbn; try reflexivity; [destruct k; reflexivity|]. apply IH. Qed.
Lemma chunks_nth av : 0 < av -> forall fuel s k, List.length s <= fuel -> k < List.length s ->
  exists c, nth_error (chunks fuel av s) (k / av) = Some c /\ nth_error c (k mod av) = nth_error s k.
Proof.
  intros Ha. induction fuel as [|fuel IH]; intros [|x s] k H Hk; try (cbn in *; lia). set (s0 := x :: s) in *.
  change (chunks (S fuel) av s0) with (firstn av s0 :: chunks fuel av (skipn av s0)).
  destruct (Nat.lt_ge_cases k av).
  - rewrite Nat.div_small, Nat.mod_small by assumption. exists (firstn av s0). split; [reflexivity|]. apply nth_firstn. assumption.
  - destruct (IH (skipn av s0) (k - av)) as (c & C1 & C2); [rewrite skipn_length; lia|rewrite skipn_length; lia|].
    exists c. replace k with (k - av + 1 * av) at 1 2 by lia. rewrite Nat.div_add, Nat.mod_add by lia.
    replace ((k - av) / av + 1) with (S ((k - av) / av)) by lia. split; [exact C1|]. rewrite C2, nth_skipn. f_equal. lia.
Qed.

Lemma print_two alt (rows : list str) (w p : str) rest : ~ In c_newline w -> ~ In c_newline p ->
  fold_left print_to (newline_of alt ++ [Print w; Print p] ++ rest) rows = fold_left print_to rest (rows ++ [w ++ p]).
Proof.
  intros Hw Hp. rewrite !fold_left_app, newline_rows. change (fold_left print_to [Print w; Print p] (rows ++ [[]])) with (print_to (print_to (rows ++ [[]]) (Print w)) (Print p)).
  rewrite print_text by exact Hw. rewrite print_text by exact Hp. reflexivity.
Qed.
Lemma in_firstn' {A} n (l : list A) x : In x (firstn n l) -> In x l.
Proof. intros H. rewrite <- (firstn_skipn n l). apply in_or_app. left. exact H. Qed.
Lemma in_skipn' {A} n (l : list A) x : In x (skipn n l) -> In x l.
Proof. intros H. rewrite <- (firstn_skipn n l). apply in_or_app. right. exact H. Qed.
Lemma chunks_fuel av : 0 < av -> forall f g s, List.length s <= f -> List.length s <= g -> chunks f av s = chunks g av s.
Proof.
  intros Ha. induction f as [|f IH]; intros [|g] [|c s] Hf Hg; try reflexivity; try (cbn in *; lia).
  cbn [chunks]. f_equal. apply IH; rewrite skipn_length; cbn [List.length] in *; lia.
Qed.

Lemma wrap_rest_ok alt line av : 0 < av -> ~ In c_newline line -> forall fuel i, List.length line - i < fuel -> i <= List.length line ->
  exists cmds, wrap_rest fuel (newline_of alt) (lit "  ") line av i = Ok cmds /\
    forall rows r, fold_left print_to cmds (rows ++ [r]) = rows ++ [r] ++ map (app (lit "  ")) (chunks (List.length line - i) av (skipn i line)).
Proof.
  intros Ha Hn. induction fuel as [|fuel IH]; intros i Hf Hi; [lia|]. cbn [wrap_rest].
  destruct (Nat.ltb_spec i (List.length line)) as [Hlt|Hge].
  - set (e := Nat.min (i + av) (List.length line)). rewrite slice_ok by lia. cbn [bind].
    destruct (IH e) as (cmds & -> & R); [lia|lia|]. cbn [bind].
    eexists. split; [reflexivity|]. intros rows r. 
    set (part := firstn (e - i) (skipn i line)).
    assert (Np : ~ In c_newline part).
    { intros Hin. apply Hn. apply (in_skipn' i). eapply in_firstn'. exact Hin. }
    etransitivity; [apply print_two; [intros [C|[C|[]]]; discriminate C|exact Np]|]. rewrite R. rewrite <- !app_assoc. f_equal. f_equal.
    assert (Ec : chunks (List.length line - i) av (skipn i line) = firstn av (skipn i line) :: chunks (List.length line - i - 1) av (skipn av (skipn i line))).
    { destruct (List.length line - i) as [|n] eqn:En; [lia|]. destruct (skipn i line) as [|c s] eqn:Es.
      - apply (f_equal (@List.length _)) in Es. rewrite skipn_length in Es. cbn [List.length] in Es. lia.
      - cbn [chunks]. replace (S n - 1) with n by lia. reflexivity. }
    rewrite Ec. cbn [map app]. f_equal.
    + f_equal. unfold part. unfold e. destruct (Nat.le_ge_cases (i + av) (List.length line)).
      * f_equal. lia.
      * rewrite !firstn_all2; auto; rewrite skipn_length; lia.
    + f_equal. rewrite skipn_plus. unfold e. destruct (Nat.le_ge_cases (i + av) (List.length line)).
      * rewrite Nat.min_l by assumption. rewrite (chunks_fuel av Ha (List.length line - (i + av)) (List.length line - i - 1)); auto; rewrite skipn_length; lia.
      * rewrite Nat.min_r by assumption. rewrite !skipn_all2 by lia. rewrite Nat.sub_diag. destruct (List.length line - i - 1); reflexivity.
  - exists []. split; [reflexivity|]. intros rows r. replace (List.length line - i) with 0 by lia. cbn. reflexivity.
Qed.

Lemma wrapped_ok pr alt complete cols cursor start line :
  3 <= cols -> fits_u16 cols -> fits_u16 (cursor / (cols - 2) + snd start) -> ~ In c_newline line ->
  exists body, display_wrapped pr alt complete cols cursor start line =
    Ok (body ++ (if complete then newline_of alt else [MoveTo (2 + cursor mod (cols - 2)) (cursor / (cols - 2) + snd start)])) /\
  exists prefix text, body = prefix ++ text /\ prefix = (if alt then [MoveTo (fst start) (snd start); ClearFromCursorDown] else [MoveToColumn 0; ClearCurrentLine]) /\
  let av := cols - 2 in
  exists c1 cs, printed_rows body = (lit "# " ++ c1) :: map (app (lit "  ")) cs /\
    List.concat (c1 :: cs) = line /\ (forall c, In c (c1 :: cs) -> List.length c <= av) /\
    (forall k, k < List.length line -> exists c, nth_error (c1 :: cs) (k / av) = Some c /\ nth_error c (k mod av) = nth_error line k) /\
    folded av line (c1 :: cs).
Proof.
  intros H3 Hu Hr Hn. unfold display_wrapped. change (repeat c_space (List.length PROMPT_STR)) with (lit "  "). cbv zeta.
  change (List.length (lit "  ")) with 2. destruct (Nat.ltb_spec cols 2); [lia|]. set (av := cols - 2) in *.
  destruct (Nat.eqb_spec av 0); [lia|].
  pose proof (Nat.mod_upper_bound cursor av ltac:(lia)) as Hm.
  rewrite (u16_ok (cursor / av)) by (unfold fits_u16 in *; lia). cbn [bind].
  unfold u16_add. unfold fits_u16 in Hr. destruct (N.ltb_spec (N.of_nat (cursor / av + snd start)) 65536); [|lia]. cbn [bind].
  rewrite (u16_ok (cursor mod av + 2)) by (unfold fits_u16 in *; lia). cbn [bind].
  rewrite slice_ok by lia. cbn [bind].
  destruct (wrap_rest_ok alt line av ltac:(lia) Hn (S (List.length line)) (Nat.min av (List.length line)) ltac:(lia) ltac:(lia)) as (cmds & E & R).
  change (if alt then [MoveToNextLine 1] else [Print [c_newline]; MoveToColumn 0]) with (newline_of alt). rewrite E. cbn [bind].
  set (c1 := firstn (Nat.min av (List.length line) - 0) (skipn 0 line)).
  set (prefix := if alt then [MoveTo (fst start) (snd start); ClearFromCursorDown] else [MoveToColumn 0; ClearCurrentLine]).
  exists (prefix ++ [Print PROMPT_STR; Print c1] ++ cmds). split.
  { rewrite <- !app_assoc. replace (cursor mod av + 2) with (2 + cursor mod av) by lia. destruct complete; reflexivity. }
  exists prefix, ([Print PROMPT_STR; Print c1] ++ cmds). split; [reflexivity|]. split; [reflexivity|].
  set (cs := chunks (List.length line - Nat.min av (List.length line)) av (skipn (Nat.min av (List.length line)) line)) in *.
  assert (Ec1 : c1 = firstn av line).
  { unfold c1. rewrite Nat.sub_0_r. cbn [skipn]. destruct (Nat.le_ge_cases av (List.length line)); [f_equal; lia|].
    rewrite !firstn_all2; auto; lia. }
  assert (Ncs : ~ In c_newline c1) by (rewrite Ec1; intros C; apply Hn; eapply in_firstn'; exact C).
  assert (Ecs : forall f, List.length line <= f -> cs = chunks f av (skipn av line)).
  { intros f Hf. unfold cs. destruct (Nat.le_ge_cases av (List.length line)).
    - rewrite Nat.min_l by assumption. apply chunks_fuel; [lia| |]; rewrite skipn_length; lia.
    - rewrite Nat.min_r by assumption. rewrite !skipn_all2 by lia. rewrite Nat.sub_diag. destruct f; reflexivity. }
  exists c1, cs. split; [|split; [|split; [|split]]].
  - unfold printed_rows. rewrite !fold_left_app. assert (P : fold_left print_to prefix [[]] = [[]]) by (unfold prefix; destruct alt; reflexivity). rewrite P.
    change (fold_left print_to [Print PROMPT_STR; Print c1] [[]]) with (print_to (print_to ([] ++ [[]]) (Print PROMPT_STR)) (Print c1)).
    rewrite print_text by (intros [C|[C|[]]]; discriminate C). rewrite print_text by exact Ncs. rewrite R. reflexivity.
  - cbn [List.concat]. rewrite Ec1, (Ecs (List.length line)) by lia. rewrite chunks_concat; [apply firstn_skipn|lia|]. rewrite skipn_length. lia.
  - intros c [<-|Hc]; [rewrite Ec1, firstn_length; lia|]. eapply chunks_short. exact Hc.
  - intros k Hk. destruct (chunks_nth av ltac:(lia) (S (List.length line)) line k ltac:(lia) Hk) as (c & C1 & C2).
    exists c. split; [|exact C2]. destruct line as [|x l]; [cbn in Hk; lia|]. etransitivity; [|exact C1]. rewrite Ec1, (Ecs (List.length (x :: l))) by lia. reflexivity.
  - destruct line as [|x l].
    + rewrite Ec1, (Ecs 0) by (cbn; lia). cbn [skipn]. exists [], []. rewrite firstn_nil. cbn. repeat split; auto; lia.
    + rewrite Ec1, (Ecs (List.length (x :: l))) by lia. apply (chunks_folded av ltac:(lia) (S (List.length (x :: l)))); [discriminate|lia].
Qed.
