(** ProofsEditor.v -- the scrollback implements the sheet of SpecEditor. *)
From Verif Require Import Base Position Num TokenTypes Errors SavedData InputHistory Editor SpecEditor.
From Coq Require Import String.
Local Open Scope nat_scope.
Local Open Scope list_scope.

Lemma ok_pair {E A B} (a a' : A) (b b' : B) : @Ok E (A * B) (a, b) = Ok (a', b') -> a = a' /\ b = b'.
Proof. intros H. injection H as -> ->. auto. Qed.
Definition edits_of (h : input_history) (k : nat) : option str :=
  match nth_error (ih_current h) k with Some (Some t) => Some t | _ => None end.
Definition sheet_of (h : input_history) : sheet :=
  mkSheet (rev (ih_internal h)) (ih_db h) (negb (ih_exhausted h)) (edits_of h) (ih_index h).
Definition same_edits (a b : sheet) : Prop :=
  sh_session a = sh_session b /\ sh_disk a = sh_disk b /\ sh_more a = sh_more b /\ sh_at a = sh_at b /\
  forall k, sh_edits a k = sh_edits b k.

(** The history's invariant. *)
Definition ih_ok (h : input_history) : Prop :=
  ih_index h < List.length (ih_current h) /\
  List.length (ih_current h) <= 1 + List.length (ih_internal h) + List.length (ih_db h) /\
  exists t rest, ih_current h = Some t :: rest.

Lemma ih_new_ok b : ih_ok (ih_new b).
Proof. repeat split; cbn; try lia. eauto. Qed.

Lemma recalled_length h : List.length (recalled (sheet_of h)) = List.length (ih_internal h) + List.length (ih_db h).
Proof. unfold recalled, sheet_of. cbn. rewrite app_length, rev_length. reflexivity. Qed.

Lemma nth_rev {A} (l : list A) k : k < List.length l -> nth_error (rev l) k = nth_error l (List.length l - S k).
Proof.
  intros H. destruct l as [|d0 l0]; [cbn in H; lia|]. set (l := d0 :: l0) in *.
  rewrite (nth_error_nth' (rev l) d0) by (rewrite rev_length; exact H).
  rewrite (nth_error_nth' l d0) by lia. f_equal. apply rev_nth. exact H.
Qed.

Lemma current_line_shown {E} h : ih_ok h -> exists t, @current_line E h = Ok t /\ shown_at (sheet_of h) (ih_index h) = Some t.
Proof.
  intros (Hi & Hl & t0 & rest & Hc). unfold current_line, nth_ok, shown_at, sheet_of, edits_of. cbn [sh_edits recalled sh_session sh_disk].
  destruct (nth_error (ih_current h) (ih_index h)) as [[t|]|] eqn:E1.
  - exists t. split; reflexivity.
  - cbn [bind]. assert (ih_index h <> 0) by (intros C; rewrite C, Hc in E1; discriminate E1).
    destruct (ih_index h) as [|k] eqn:Ek; [congruence|]. cbn [nth_error]. unfold recalled. cbn [sh_session sh_disk].
    destruct (Nat.leb_spec (S k) (List.length (ih_internal h))).
    + rewrite nth_error_app1 by (rewrite rev_length; lia). rewrite nth_rev by lia.
      destruct (nth_error (ih_internal h) (List.length (ih_internal h) - S k)) as [t|] eqn:E2; [eauto|].
      apply nth_error_None in E2. lia.
    + rewrite nth_error_app2 by (rewrite rev_length; lia). rewrite rev_length.
      replace (S k - List.length (ih_internal h) - 1) with (k - List.length (ih_internal h)) by lia.
      destruct (nth_error (ih_db h) (k - List.length (ih_internal h))) as [t|] eqn:E2; [eauto|].
      apply nth_error_None in E2. lia.
  - apply nth_error_None in E1. lia.
Qed.

(** moving up *)
Lemma go_earlier_ok h : ih_ok h -> ih_index h < List.length (ih_internal h) + List.length (ih_db h) -> ih_ok (go_earlier h).
Proof.
  intros (Hi & Hl & t0 & rest & Hc) Hlt. unfold go_earlier, ih_ok. cbn [ih_index ih_current ih_internal ih_db].
  destruct (Nat.leb_spec (List.length (ih_current h)) (ih_index h + 1)).
  - rewrite app_length. cbn [List.length]. repeat split; try lia. rewrite Hc. cbn. eauto.
  - repeat split; try lia. eauto.
Qed.
Lemma go_earlier_edits h k : edits_of (go_earlier h) k = edits_of h k.
Proof.
  unfold edits_of, go_earlier. cbn [ih_current]. destruct (Nat.leb_spec (List.length (ih_current h)) (ih_index h + 1)); [|reflexivity].
  destruct (Nat.lt_ge_cases k (List.length (ih_current h))).
  - rewrite nth_error_app1 by assumption. reflexivity.
  - rewrite nth_error_app2 by assumption. rewrite (proj2 (nth_error_None (ih_current h) k)) by assumption.
    destruct (k - List.length (ih_current h)) as [|[|?]]; reflexivity.
Qed.

Definition refines (act : haction) (h h' : input_history) (a : answer) : Prop :=
  ih_ok h' /\ exists s', sheet_step act (sheet_of h) s' a /\ same_edits s' (sheet_of h').

Lemma up_refines h db h' db' r : ih_ok h -> try_earlier h db = (h', db', r) ->
  (forall p, r <> Panic p) ->
  refines (Up db) h h' (match r with Ok true => Moved | Ok false => Refused | Err e => Error e | Panic p => Crash p end).
Proof.
  intros Hok E Hp. unfold try_earlier in E. destruct (Nat.leb_spec (List.length (ih_internal h) + List.length (ih_db h)) (ih_index h)) as [Hle|Hlt].
  - assert (Hat : sh_at (sheet_of h) = List.length (recalled (sheet_of h))).
    { rewrite recalled_length. cbn. destruct Hok as (H1 & H2 & _). lia. }
    assert (Hmore : sh_more (sheet_of h) = negb (ih_exhausted h)) by reflexivity.
    destruct (ih_exhausted h) eqn:Ex; cbn [negb] in Hmore.
    { apply pair_equal_spec in E as [E <-]. apply pair_equal_spec in E as [<- <-].
      split; [exact Hok|]. exists (sheet_of h). split; [apply t_up_none; assumption|repeat split]. }
    destruct db as [db|].
    2:{ apply pair_equal_spec in E as [E <-]. apply pair_equal_spec in E as [<- <-].
        split; [exact Hok|]. exists (sheet_of h). split; [apply t_up_lost; assumption|repeat split]. }
    assert (Eg : from_disk db = snd (get_prev_input_history db)) by reflexivity.
    destruct (get_prev_input_history db) as [db1 [[t|]|e|p]]; cbn [snd] in Eg.
    + apply pair_equal_spec in E as [E <-]. apply pair_equal_spec in E as [<- <-].
      set (h1 := mkIH (ih_internal h) (ih_db h ++ [t]) (ih_current h) (ih_index h) false).
      assert (Hok1 : ih_ok h1).
      { destruct Hok as (H1 & H2 & H3). unfold ih_ok, h1. cbn [ih_index ih_current ih_internal ih_db]. rewrite app_length. repeat split; try lia. exact H3. }
      split.
      * apply go_earlier_ok; [exact Hok1|]. unfold h1. cbn [ih_index ih_internal ih_db]. rewrite app_length. cbn [List.length].
        destruct Hok as (H1 & H2 & _). lia.
      * eexists. split; [apply (t_up_disk db _ t Hat Hmore Eg)|].
        repeat split; cbn; try lia. intros k. rewrite go_earlier_edits. reflexivity.
    + apply pair_equal_spec in E as [E <-]. apply pair_equal_spec in E as [<- <-].
      split; [exact Hok|]. eexists. split; [apply (t_up_last db _ Hat Hmore Eg)|repeat split].
    + apply pair_equal_spec in E as [E <-]. apply pair_equal_spec in E as [<- <-].
      split; [exact Hok|]. exists (sheet_of h). split; [apply (t_up_error db _ e Hat Hmore Eg)|repeat split].
    + apply pair_equal_spec in E as [E <-]. destruct (Hp p); reflexivity.
  - apply pair_equal_spec in E as [E <-]. apply pair_equal_spec in E as [<- <-].
    split; [apply go_earlier_ok; assumption|]. eexists. split; [apply t_up; rewrite recalled_length; exact Hlt|].
    repeat split; cbn; try lia. intros k. rewrite go_earlier_edits. reflexivity.
Qed.

Lemma down_refines h h' b : ih_ok h -> try_later h = (h', b) -> refines Down h h' (if b then Moved else Refused).
Proof.
  intros Hok E. unfold try_later in E. destruct (ih_index h) as [|k] eqn:Ek; apply pair_equal_spec in E as [<- <-].
  - split; [exact Hok|]. exists (sheet_of h). split; [apply t_down_none; exact Ek|repeat split].
  - split.
    + destruct Hok as (H1 & H2 & H3). repeat split; cbn [ih_index ih_current ih_internal ih_db]; try lia. exact H3.
    + eexists. split; [apply (t_down _ k); exact Ek|repeat split].
Qed.

(** editing *)
Lemma list_set_length {A} (l : list A) i a : List.length (list_set l i a) = List.length l.
Proof. revert i. induction l as [|x l IH]; intros [|i]; cbn; auto. Qed.
Lemma nth_list_set {A} (l : list A) i a k : i < List.length l ->
  nth_error (list_set l i a) k = if Nat.eqb k i then Some a else nth_error l k.
Proof.
  revert i k. induction l as [|x l IH]; intros i k H; [cbn in H; lia|].
  destruct i as [|i], k as [|k]; cbn; auto. apply IH. cbn in H. lia.
Qed.
Lemma list_set_hd {A} (t : A) l i (a : A) : exists t' rest, list_set (Some t :: l) i (Some a) = Some t' :: rest.
Proof. destruct i; cbn; eauto. Qed.

Lemma edit_spec {E} (f : str -> outcome E str) h t t' : ih_ok h -> shown_at (sheet_of h) (ih_index h) = Some t -> f t = Ok t' ->
  exists h', edit_current f h = Ok h' /\ ih_ok h' /\
    same_edits (mkSheet (rev (ih_internal h)) (ih_db h) (negb (ih_exhausted h)) (put_edit (edits_of h) (ih_index h) t') (ih_index h)) (sheet_of h') /\
    ih_exhausted h' = ih_exhausted h.
Proof.
  intros Hok Hs Hf. destruct (@current_line_shown E h Hok) as (t1 & Hcl & Hs1). assert (t1 = t) by congruence. subst t1.
  destruct Hok as (Hi & Hl & t0 & rest & Hc).
  unfold edit_current, ensure_populated, nth_ok. destruct (nth_error (ih_current h) (ih_index h)) as [[u|]|] eqn:E1; [| |apply nth_error_None in E1; lia].
  - cbn [bind]. rewrite E1. cbn [bind].
    assert (u = t). { unfold shown_at, sheet_of, edits_of in Hs. cbn [sh_edits] in Hs. rewrite E1 in Hs. congruence. }
    subst u. rewrite Hf. cbn [bind]. eexists. split; [reflexivity|]. split; [|split; [|reflexivity]].
    + unfold ih_ok. cbn [ih_index ih_current ih_internal ih_db]. rewrite list_set_length. split; [exact Hi|]. split; [exact Hl|].
      rewrite Hc. apply list_set_hd.
    + repeat split. intros k. cbn [sh_edits sheet_of]. unfold put_edit, edits_of. cbn [ih_current]. rewrite nth_list_set by exact Hi.
      destruct (Nat.eqb k (ih_index h)); reflexivity.
  - cbn [bind]. rewrite Hcl. cbn [bind ih_current ih_index ih_internal ih_db ih_exhausted].
    rewrite nth_list_set, Nat.eqb_refl by exact Hi. cbn [bind]. rewrite Hf. cbn [bind].
    eexists. split; [reflexivity|]. split; [|split; [|reflexivity]].
    + unfold ih_ok. cbn [ih_index ih_current ih_internal ih_db]. rewrite !list_set_length. split; [exact Hi|]. split; [exact Hl|].
      rewrite Hc. destruct (list_set_hd t0 rest (ih_index h) t) as (t2 & r2 & ->). apply list_set_hd.
    + repeat split. intros k. cbn [sh_edits sheet_of]. unfold put_edit, edits_of. cbn [ih_current].
      rewrite nth_list_set by (rewrite list_set_length; exact Hi). rewrite nth_list_set by exact Hi.
      destruct (Nat.eqb k (ih_index h)); reflexivity.
Qed.

Lemma insert_spec {E} h i c t : ih_ok h -> shown_at (sheet_of h) (ih_index h) = Some t -> i <= List.length t ->
  exists h', @insert_char E h i c = Ok h' /\ ih_ok h' /\
    same_edits (mkSheet (rev (ih_internal h)) (ih_db h) (negb (ih_exhausted h)) (put_edit (edits_of h) (ih_index h) (firstn i t ++ c :: skipn i t)) (ih_index h)) (sheet_of h') /\
    ih_exhausted h' = ih_exhausted h.
Proof.
  intros Hok Hs Hi. apply (edit_spec (fun s => string_insert s i c) h t); auto. unfold string_insert.
  destruct (Nat.leb_spec i (List.length t)); [reflexivity|lia].
Qed.
Lemma remove_spec {E} h i t : ih_ok h -> shown_at (sheet_of h) (ih_index h) = Some t -> i < List.length t ->
  exists h', @remove_char E h i = Ok h' /\ ih_ok h' /\
    same_edits (mkSheet (rev (ih_internal h)) (ih_db h) (negb (ih_exhausted h)) (put_edit (edits_of h) (ih_index h) (firstn i t ++ skipn (S i) t)) (ih_index h)) (sheet_of h') /\
    ih_exhausted h' = ih_exhausted h.
Proof.
  intros Hok Hs Hi. apply (edit_spec (fun s => string_remove s i) h t); auto. unfold string_remove.
  destruct (Nat.ltb_spec i (List.length t)); [reflexivity|lia].
Qed.
Lemma finish_spec h db h' db' r t : ih_ok h -> shown_at (sheet_of h) (ih_index h) = Some t -> input_finished h db = (h', db', r) ->
  ih_ok h' /\ same_edits (mkSheet (t :: rev (ih_internal h)) (ih_db h) (negb (ih_exhausted h)) (fun k => if Nat.eqb k 0 then Some [] else None) 0) (sheet_of h') /\
  ih_internal h' = ih_internal h ++ [t] /\ ih_exhausted h' = ih_exhausted h.
Proof.
  intros Hok Hs E. unfold input_finished in E. destruct (@current_line_shown runtime_error h Hok) as (t1 & Hcl & Hs1).
  assert (t1 = t) by congruence. subst t1. rewrite Hcl in E.
  assert (h' = mkIH (ih_internal h ++ [t]) (ih_db h) [Some []] 0 (ih_exhausted h)).
  { destruct db as [db|]; [destruct (add_to_input_history t db) as [? [?|?|?]]|]; apply pair_equal_spec in E as [E _]; apply pair_equal_spec in E as [<- _]; reflexivity. }
  subst h'. split; [repeat split; cbn; try lia; eauto|]. split; [|split; reflexivity].
  repeat split; cbn; try rewrite rev_app_distr; try reflexivity. intros [|[|k]]; reflexivity.
Qed.

(** ** The database cannot crash the history *)
Lemma get_prev_no_panic db db' p : get_prev_input_history db <> (db', Panic p).
Proof.
  unfold get_prev_input_history, sd_call. intros E. destruct (sd_pos db) as [id|]; [|discriminate E].
  destruct (sd_faults db) as [|[|] fs]; cbn in E; try discriminate E; destruct (find_hist (d_hist (sd_db db)) id); discriminate E.
Qed.
Lemma tx_bind_panic {A B} (m : tx A) (f : A -> tx B) d p : tx_bind m f d = Panic p ->
  m d = Panic p \/ exists a d', m d = Ok (a, d') /\ f a d' = Panic p.
Proof. unfold tx_bind. destruct (m d) as [[a d']|e|q]; intros E; [right; eauto|discriminate E|left; congruence]. Qed.
Lemma find_hist_in h id r : find_hist h id = Some r -> In r h /\ h_id r = id.
Proof.
  induction h as [|x h IH]; [discriminate|]. cbn. destruct (Z.eqb_spec (h_id x) id).
  - intros E. injection E as <-. auto.
  - intros E. destruct (IH E). auto.
Qed.
Lemma filter_le {A} (f : A -> bool) l : List.length (filter f l) <= List.length l.
Proof. induction l as [|y l IH]; [auto|]. cbn. destruct (f y); cbn; lia. Qed.
Lemma filter_shrinks {A} (f : A -> bool) l x : In x l -> f x = false -> List.length (filter f l) < List.length l.
Proof.
  induction l as [|y l IH]; [intros []|]. intros [->|Hx] Hf; cbn [filter List.length].
  - rewrite Hf. pose proof (filter_le f l). lia.
  - specialize (IH Hx Hf). destruct (f y); cbn [List.length]; lia.
Qed.
Lemma evict_no_panic max fuel : forall d p, List.length (d_hist d) < fuel -> (0 <= max)%Z -> tx_evict_loop fuel max d <> Panic p.
Proof.
  induction fuel as [|fuel IH]; intros d p Hf Hm E; [lia|]. cbn [tx_evict_loop] in E.
  apply tx_bind_panic in E as [E|(size & d1 & E1 & E)]; [discriminate E|]. unfold sql_hist_count in E1. apply ok_pair in E1 as [<- <-].
  destruct (Z.leb_spec (Z.of_nat (List.length (d_hist d))) max); [discriminate E|].
  apply tx_bind_panic in E as [E|(ob & d2 & E2 & E)].
  { unfold not_null, tx_bind, sql_tag_select in E. destruct (zassoc tag_Back (d_tags d)) as [[z|]|]; discriminate E. }
  assert (d2 = d).
  { unfold not_null, tx_bind, sql_tag_select, tx_ret, tx_fail in E2. destruct (zassoc tag_Back (d_tags d)) as [[z|]|]; try discriminate E2. apply ok_pair in E2 as [_ <-]. reflexivity. }
  subst d2. clear E2.
  apply tx_bind_panic in E as [E|(nb & d3 & E3 & E)].
  { unfold not_null, tx_bind, sql_hist_next in E. destruct (find_hist (d_hist d) ob) as [row|]; [destruct (h_next row)|]; discriminate E. }
  assert (F : d3 = d /\ exists row, find_hist (d_hist d) ob = Some row).
  { unfold not_null, tx_bind, sql_hist_next, tx_ret, tx_fail in E3. destruct (find_hist (d_hist d) ob) as [row|]; [|discriminate E3].
    destruct (h_next row); [|discriminate E3]. apply ok_pair in E3 as [_ <-]. eauto. }
  destruct F as [-> (row & Frow)]. clear E3. apply find_hist_in in Frow as [Hrow Hid].
  apply tx_bind_panic in E as [E|(u & d4 & E4 & E)]; [discriminate E|]. unfold sql_hist_clear_prev in E4. apply ok_pair in E4 as [_ <-].
  set (h4 := map _ (d_hist d)) in E.
  assert (L4 : List.length h4 = List.length (d_hist d)) by (unfold h4; apply map_length).
  assert (I4 : In ob (map h_id h4)).
  { unfold h4. rewrite map_map. erewrite map_ext; [apply (in_map h_id) in Hrow; rewrite Hid in Hrow; exact Hrow|].
    intros r. destruct (Z.eqb (h_id r) nb); reflexivity. }
  apply tx_bind_panic in E as [E|(u' & d5 & E5 & E)].
  { unfold sql_tag_update in E. destruct (zassoc _ _); [|discriminate E]. destruct (fk_ok _ _); discriminate E. }
  assert (H5 : d_hist d5 = h4).
  { unfold sql_tag_update in E5. destruct (zassoc _ _); [destruct (fk_ok _ _); [|discriminate E5]|]; apply ok_pair in E5 as [_ <-]; reflexivity. }
  apply tx_bind_panic in E as [E|(u'' & d6 & E6 & E)].
  { unfold sql_hist_delete in E. destruct (_ && _) in E; discriminate E. }
  assert (L6 : List.length (d_hist d6) < List.length (d_hist d)).
  { unfold sql_hist_delete in E6. destruct (_ && _) in E6; [discriminate E6|]. apply ok_pair in E6 as [_ <-]. cbn [d_hist]. rewrite H5.
    apply in_map_iff in I4 as (r & Hr & I4). rewrite <- L4. apply (filter_shrinks _ _ r I4). rewrite Hr, Z.eqb_refl. reflexivity. }
  apply (IH d6 p); [lia|exact Hm|exact E].
Qed.
Lemma tx_add_no_panic text d p : tx_add text d <> Panic p.
Proof.
  intros E. unfold tx_add in E.
  apply tx_bind_panic in E as [E|(fr & d1 & _ & E)]; [unfold sql_tag_select in E; destruct (zassoc _ _); discriminate E|].
  apply tx_bind_panic in E as [E|(id & d2 & _ & E)]; [unfold sql_hist_insert in E; destruct (fk_ok _ _); discriminate E|].
  apply tx_bind_panic in E as [E|(u & d3 & _ & E)]; [unfold sql_tag_update in E; destruct (zassoc _ _); [destruct (fk_ok _ _)|]; discriminate E|].
  apply tx_bind_panic in E as [E|(u' & d4 & _ & E)].
  { destruct fr as [z|]; [unfold sql_hist_set_next in E; destruct (has_id _ _); [destruct (has_id _ _)|]; discriminate E|].
    unfold sql_tag_update in E; destruct (zassoc _ _); [destruct (fk_ok _ _)|]; discriminate E. }
  apply tx_bind_panic in E as [E|(u'' & d5 & _ & E)]; [|discriminate E].
  unfold tx_enforce in E. apply tx_bind_panic in E as [E|(mx & d6 & _ & E)]; [unfold tx_get_max, sql_meta_select in E; destruct (zassoc _ _); discriminate E|].
  unfold validate_max_history_size in E. destruct (Z.ltb_spec mx 1); [discriminate E|]. revert E. apply evict_no_panic; lia.
Qed.
Lemma add_no_panic text db db' p : add_to_input_history text db <> (db', Panic p).
Proof.
  unfold add_to_input_history, sd_call. intros E. pose proof (tx_add_no_panic text (sd_db db)) as N.
  destruct (sd_faults db) as [|[|] fs]; try discriminate E; destruct (tx_add text (sd_db db)) as [[a d]|e|q]; try discriminate E; destruct (N q); reflexivity.
Qed.

(** ** Actions *)
Definition same_view (a b : sheet) : Prop :=
  sh_session a = sh_session b /\ sh_disk a = sh_disk b /\ sh_more a = sh_more b /\ sh_at a = sh_at b /\ forall k, shown_at a k = shown_at b k.
Lemma same_edits_view a b : same_edits a b -> same_view a b.
Proof.
  intros (A & B & M & C & D). repeat split; auto. intros k. unfold shown_at, recalled. rewrite D, A, B. reflexivity.
Qed.
Lemma same_view_trans a b c : same_view a b -> same_view b c -> same_view a c.
Proof. intros (A & B & M & C & D) (A' & B' & M' & C' & D'). repeat split; try congruence; intros; congruence. Qed.
Lemma same_view_sym a b : same_view a b -> same_view b a.
Proof. intros (A & B & M & C & D). repeat split; try congruence; intros; congruence. Qed.

Lemma put_edit_shown s m k t j at' : shown_at (mkSheet (sh_session s) (sh_disk s) m (put_edit (sh_edits s) k t) at') j =
  if Nat.eqb j k then Some t else shown_at s j.
Proof. unfold shown_at, put_edit, recalled. cbn. destruct (Nat.eqb j k); reflexivity. Qed.
Lemma app_disk_shown s m t at' j : shown_at (mkSheet (sh_session s) (sh_disk s ++ [t]) m (sh_edits s) at') j =
  match shown_at s j with Some u => Some u | None => if Nat.eqb j (S (List.length (recalled s))) then Some t else None end.
Proof.
  unfold shown_at, recalled. cbn [sh_edits sh_session sh_disk]. destruct (sh_edits s j) as [u|]; [reflexivity|].
  rewrite app_assoc. set (l := sh_session s ++ sh_disk s). rewrite app_comm_cons.
  destruct (Nat.lt_ge_cases j (List.length ([] :: l))) as [H|H].
  - rewrite nth_error_app1 by exact H. destruct (nth_error ([] :: l) j) eqn:E; [rewrite ?E; exact E || reflexivity|]. apply nth_error_None in E. lia.
  - rewrite nth_error_app2 by exact H. rewrite (proj2 (nth_error_None ([] :: l) j)) by exact H. cbn [List.length] in *.
    destruct (Nat.eqb_spec j (S (List.length l))) as [->|]; [rewrite Nat.sub_diag; reflexivity|].
    assert (H2 : S (List.length l) <= j) by exact H. destruct (j - S (List.length l)) as [|[|?]] eqn:E; [lia|reflexivity|reflexivity].
Qed.

Lemma view_step act a a' ans b : sheet_step act a a' ans -> same_view a b -> exists b', sheet_step act b b' ans /\ same_view a' b'.
Proof.
  intros S (A & B & M & C & D). assert (R : recalled a = recalled b) by (unfold recalled; congruence).
  destruct S.
  - eexists. split; [apply t_up; congruence|]. repeat split; cbn; try congruence; exact D.
  - eexists. split; [apply t_up_disk; [congruence|congruence|eassumption]|]. repeat split; cbn [sh_session sh_disk sh_more sh_at]; try congruence.
    intros k. rewrite !app_disk_shown, D, R. reflexivity.
  - eexists. split; [apply t_up_last; [congruence|congruence|eassumption]|]. repeat split; cbn; try congruence; exact D.
  - exists b. split; [apply t_up_none; congruence|repeat split; auto].
  - exists b. split; [apply t_up_error; [congruence|congruence|eassumption]|repeat split; auto].
  - exists b. split; [apply t_up_lost; congruence|repeat split; auto].
  - eexists. split; [apply t_down; rewrite <- C; eassumption|]. repeat split; cbn; try congruence; exact D.
  - exists b. split; [apply t_down_none; congruence|repeat split; auto].
  - eexists. split; [apply t_type; [rewrite <- C, <- D; eassumption|assumption]|].
    repeat split; cbn [sh_session sh_disk sh_more sh_at]; try congruence. intros k. rewrite !put_edit_shown, C, D. reflexivity.
  - eexists. split; [apply t_erase; [rewrite <- C, <- D; eassumption|assumption]|].
    repeat split; cbn [sh_session sh_disk sh_more sh_at]; try congruence. intros k. rewrite !put_edit_shown, C, D. reflexivity.
  - eexists. split; [apply t_submit; [rewrite <- C, <- D; eassumption|assumption]|].
    repeat split; cbn [sh_session sh_disk sh_more sh_at]; try congruence; try (intros k; unfold shown_at, recalled; cbn; rewrite A, B; reflexivity).
Qed.

Lemma hstep_refines act h : ih_ok h -> (forall line, shown h = Ok line -> in_line act line) ->
  ih_ok (fst (hstep act h)) /\ (forall p, snd (hstep act h) <> Crash p) /\
  exists s', sheet_step act (sheet_of h) s' (snd (hstep act h)) /\ same_view s' (sheet_of (fst (hstep act h))).
Proof.
  intros Hok Hin. destruct (@current_line_shown runtime_error h Hok) as (t & Hcl & Hs). specialize (Hin t Hcl).
  destruct act as [db| |i c|i|db]; cbn [hstep].
  - destruct (try_earlier h db) as [[h' db'] r] eqn:E.
    assert (NP : forall p, r <> Panic p).
    { intros p ->. unfold try_earlier in E. destruct (Nat.leb _ _); [|discriminate E]. destruct (ih_exhausted h); [discriminate E|].
      destruct db as [db|]; [|discriminate E]. destruct (get_prev_input_history db) as [db1 [[u|]|e|q]] eqn:Eg; try discriminate E.
      apply (get_prev_no_panic _ _ _ Eg). }
    destruct (up_refines h db h' db' r Hok E NP) as (Hok' & s' & St & Se).
    destruct r as [[|]|e|p]; cbn [fst snd]; [| | |destruct (NP p); reflexivity];
      (split; [exact Hok'|]; split; [discriminate|]; exists s'; split; [exact St|apply same_edits_view, Se]).
  - destruct (try_later h) as [h' b] eqn:E. destruct (down_refines h h' b Hok E) as (Hok' & s' & St & Se).
    destruct b; cbn [fst snd]; (split; [exact Hok'|]; split; [discriminate|]; exists s'; split; [exact St|apply same_edits_view, Se]).
  - destruct (@insert_spec runtime_error h i c t Hok Hs Hin) as (h' & -> & Hok' & Se & _). cbn [fst snd].
    split; [exact Hok'|]. split; [discriminate|]. eexists. split; [apply (t_type _ i c t Hs Hin)|apply same_edits_view, Se].
  - destruct (@remove_spec runtime_error h i t Hok Hs Hin) as (h' & -> & Hok' & Se & _). cbn [fst snd].
    split; [exact Hok'|]. split; [discriminate|]. eexists. split; [apply (t_erase _ i t Hs Hin)|apply same_edits_view, Se].
  - destruct (input_finished h db) as [[h' db'] r] eqn:E. destruct (finish_spec h db h' db' r t Hok Hs E) as (Hok' & Se & _ & _).
    assert (V : same_view (mkSheet (t :: sh_session (sheet_of h)) (sh_disk (sheet_of h)) (sh_more (sheet_of h)) (fun _ => None) 0) (sheet_of h')).
    { eapply same_view_trans; [|apply same_edits_view, Se]. repeat split. intros [|k]; reflexivity. }
    assert (NP : forall p, r <> Panic p).
    { intros p ->. unfold input_finished in E. change (@current_line runtime_error h) with (shown h) in E. unfold shown in E. rewrite Hcl in E.
      destruct db as [db|]; [|discriminate E]. destruct (add_to_input_history t db) as [db1 [id|e|q]] eqn:Ea; try discriminate E. apply (add_no_panic _ _ _ _ Ea). }
    destruct r as [o|e|p]; cbn [fst snd]; [| |destruct (NP p); reflexivity];
      (split; [exact Hok'|]; split; [discriminate|]; eexists; split; [eapply (t_submit db _ t); [exact Hs|eauto]|exact V]).
Qed.

Lemma hrun_refines acts : forall h s, ih_ok h -> same_view s (sheet_of h) -> well_placed acts h ->
  sheet_run acts s (hrun acts h) /\ ih_ok (hend acts h) /\
  Forall (fun o => (forall p, fst o <> Crash p) /\ exists t, snd o = Ok t) (hrun acts h).
Proof.
  induction acts as [|act acts IH]; intros h s Hok Hv Hw; [split; [constructor|split; [exact Hok|constructor]]|].
  destruct Hw as [Hin Hw]. destruct (hstep_refines act h Hok Hin) as (Hok' & NC & s1 & St & V1).
  destruct (view_step _ _ _ _ s St (same_view_sym _ _ Hv)) as (s2 & St2 & V2). cbn [hrun hend].
  destruct (hstep act h) as [h' a]. cbn [fst snd] in *.
  assert (V3 : same_view s2 (sheet_of h')) by (eapply same_view_trans; [apply same_view_sym, V2|exact V1]).
  destruct (IH h' s2 Hok' V3 Hw) as (R & O & F).
  destruct (@current_line_shown runtime_error h' Hok') as (t & Hcl & Hs).
  split; [|split; [exact O|]].
  - unfold shown. rewrite Hcl. econstructor; [exact St2| |exact R]. destruct V3 as (_ & _ & _ & C & D). rewrite D, C. exact Hs.
  - constructor; [|exact F]. cbn [fst snd]. split; [exact NC|]. exists t. exact Hcl.
Qed.
