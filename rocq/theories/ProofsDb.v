(** ProofsDb.v -- the tables implement the abstract store of SpecHistory. *)
From Verif Require Import Base Position Num TokenTypes Errors SavedData Sessions SpecEval SpecHistory ProofsLex ProofsText ProofsNum ProofsEval.
From Coq Require Import String Sorted.
Local Open Scope nat_scope.
Local Open Scope list_scope.

(** ** Rows from inputs *)
Definition head_id (l : list (Z * str)) : option Z := option_map fst (hd_error l).
Definition last_id (l : list (Z * str)) : option Z := option_map fst (hd_error (rev l)).
Fixpoint link (prev : option Z) (l : list (Z * str)) : list hist_row :=
  match l with
  | [] => []
  | (i, t) :: l' => mkHist i t (head_id l') prev :: link (Some i) l'
  end.
Definition incr (l : list (Z * str)) : Prop := StronglySorted Z.lt (map fst l).

Lemma link_ids p l : map h_id (link p l) = map fst l.
Proof. revert p. induction l as [|[i t] l IH]; intros p; [reflexivity|]. cbn [link map h_id fst]. rewrite IH. reflexivity. Qed.
Lemma link_length p l : List.length (link p l) = List.length l.
Proof. rewrite <- (map_length h_id), link_ids, map_length. reflexivity. Qed.
Lemma incr_cons i t l : incr ((i, t) :: l) <-> incr l /\ Forall (fun j => (i < j)%Z) (map fst l).
Proof.
  unfold incr. cbn [map fst]. split; [intros H; inversion H; auto|intros []; constructor; auto].
Qed.
Lemma incr_app a b : incr (a ++ b) <-> incr a /\ incr b /\ (forall x y, In x (map fst a) -> In y (map fst b) -> (x < y)%Z).
Proof.
  induction a as [|[i t] a IH]; cbn [app].
  - split; [intros H; split; [constructor|split; [exact H|intros x y []]]|tauto].
  - rewrite !incr_cons, IH, map_app, Forall_app. cbn [map fst]. rewrite !Forall_forall. split.
    + intros [[Ha [Hb Hab]] [H1 H2]]. split; [auto|]. split; [exact Hb|]. intros x y [<-|Hx] Hy; auto.
    + intros [[Ha H1] [Hb Hab]]. split; [split; [exact Ha|split; [exact Hb|intros x y Hx Hy; apply Hab; [right|]; auto]]|].
      split; [exact H1|]. intros y Hy. apply Hab; [left; reflexivity|exact Hy].
Qed.
Lemma incr_nodup l : incr l -> NoDup (map fst l).
Proof.
  induction l as [|[i t] l IH]; [constructor|]. rewrite incr_cons. intros [H F]. cbn [map fst]. constructor; [|auto].
  intros C. rewrite Forall_forall in F. specialize (F _ C). lia.
Qed.

Lemma has_id_in h id : has_id h id = true <-> In id (map h_id h).
Proof.
  unfold has_id, hist_ids. rewrite existsb_exists. split.
  - intros (x & Hx & E). apply Z.eqb_eq in E. subst. exact Hx.
  - intros H. exists id. split; [exact H|apply Z.eqb_refl].
Qed.
Lemma has_id_false h id : has_id h id = false <-> ~ In id (map h_id h).
Proof. rewrite <- has_id_in. destruct (has_id h id); split; congruence. Qed.
Lemma has_input_in l id : has_input l id = true <-> In id (map fst l).
Proof.
  unfold has_input. rewrite existsb_exists, in_map_iff. split.
  - intros (x & Hx & E). apply Z.eqb_eq in E. eauto.
  - intros (x & <- & H). exists x. split; [exact H|apply Z.eqb_refl].
Qed.
Lemma has_input_has_id p l id : has_id (link p l) id = has_input l id.
Proof.
  apply eq_true_iff_eq. rewrite has_id_in, has_input_in, link_ids. reflexivity.
Qed.

Lemma last_id_snoc l i t : last_id (l ++ [(i, t)]) = Some i.
Proof. unfold last_id. rewrite rev_app_distr. reflexivity. Qed.
Lemma last_id_cons e l : l <> [] -> last_id (e :: l) = last_id l.
Proof. intros H. destruct (exists_last H) as (l' & (i & t) & ->). rewrite app_comm_cons, !last_id_snoc. reflexivity. Qed.
Lemma list_snoc {A} (l : list A) : l = [] \/ exists l' a, l = l' ++ [a].
Proof. destruct l as [|a l]; [auto|]. right. destruct (@exists_last _ (a :: l)) as (l' & b & ->); [discriminate|eauto]. Qed.

Lemma fold_max_last l : forall x, incr l -> (forall e, In e l -> (x < fst e)%Z) ->
  fold_left Z.max (map fst l) x = match last_id l with Some m => m | None => x end.
Proof.
  induction l as [|[i t] l IH]; intros x Hi Hx; [reflexivity|]. cbn [map fst fold_left].
  apply incr_cons in Hi as [Hi Hf]. assert (x < i)%Z by (apply (Hx (i, t)); left; reflexivity).
  rewrite Z.max_r by lia. rewrite IH; [|exact Hi|].
  - destruct l as [|e l]; [reflexivity|]. rewrite (last_id_cons (i, t)) by discriminate.
    destruct (list_snoc (e :: l)) as [E|(l' & (j & u) & ->)]; [discriminate|]. rewrite last_id_snoc. reflexivity.
  - intros e He. rewrite Forall_forall in Hf. apply Hf, in_map, He.
Qed.
Lemma next_rowid_link l : incr l -> next_rowid (link None l) = next_id l.
Proof.
  intros H. unfold next_rowid, hist_ids. rewrite link_ids. destruct l as [|[i t] l]; [reflexivity|].
  cbn [map fst]. apply incr_cons in H as [Hi Hf]. rewrite fold_max_last; [|exact Hi|].
  - unfold next_id. destruct (list_snoc l) as [->|(l' & (j & u) & ->)]; [reflexivity|].
    rewrite last_id_snoc, app_comm_cons, rev_app_distr. reflexivity.
  - intros e He. rewrite Forall_forall in Hf. apply Hf, in_map, He.
Qed.
Lemma next_id_above l : incr l -> forall i, In i (map fst l) -> (i < next_id l)%Z.
Proof.
  intros H i Hi. unfold next_id. destruct (list_snoc l) as [->|(l' & (j & u) & ->)]; [destruct Hi|].
  rewrite rev_app_distr. cbn [rev app fst]. rewrite map_app in Hi. apply in_app_iff in Hi as [Hi|[<-|[]]]; [|cbn; lia].
  apply incr_app in H as (_ & _ & H). specialize (H i j Hi (or_introl eq_refl)). lia.
Qed.

(** ** Variables *)
Definition vars_rep (rows : list var_row) (f : str -> option (Q * Z)) : Prop :=
  NoDup (map v_name rows) /\ (forall r, In r rows -> exists q, row_holds r q) /\
  forall x q id, f x = Some (q, id) <-> exists r, In r rows /\ v_name r = x /\ row_holds r q /\ v_used r = id.
Definition restrict (keep : Z -> bool) (f : str -> option (Q * Z)) : str -> option (Q * Z) :=
  fun x => match f x with Some (q, id) => if keep id then Some (q, id) else None | None => None end.

Lemma vars_rep_ext rows f g : (forall x, f x = g x) -> vars_rep rows f -> vars_rep rows g.
Proof. intros E (A & B & C). split; [exact A|split; [exact B|]]. intros x q id. rewrite <- E. apply C. Qed.
Lemma nodup_filter_names (k : var_row -> bool) rows : NoDup (map v_name rows) -> NoDup (map v_name (filter k rows)).
Proof.
  induction rows as [|r rows IH]; [auto|]. cbn [map filter]. intros H. inversion H as [|? ? H1 H2]; subst.
  destruct (k r); [|auto]. cbn [map]. constructor; [|auto]. intros C. apply H1.
  apply in_map_iff in C as (r' & <- & C). apply filter_In in C as [C _]. apply in_map, C.
Qed.
Lemma vars_rep_filter rows f keep : vars_rep rows f -> vars_rep (filter (fun v => keep (v_used v)) rows) (restrict keep f).
Proof.
  intros (A & B & C). split; [apply nodup_filter_names, A|]. split.
  - intros r Hr. apply filter_In in Hr as [Hr _]. auto.
  - intros x q id. unfold restrict. split.
    + destruct (f x) as [[q' id']|] eqn:E; [|discriminate]. destruct (keep id') eqn:K; [|discriminate].
      intros H. injection H as <- <-. apply C in E as (r & Hr & Hn & Hh & Hu). exists r. split; [|auto].
      apply filter_In. rewrite Hu. auto.
    + intros (r & Hr & Hn & Hh & Hu). apply filter_In in Hr as [Hr K]. rewrite Hu in K.
      assert (E : f x = Some (q, id)) by (apply C; eauto). rewrite E, K. reflexivity.
Qed.

(** ** The store and its tables *)
Definition versions (d : database) : Prop :=
  zassoc meta_MinimumVersion (d_meta d) = Some 1%Z /\ zassoc meta_Version (d_meta d) = Some 1%Z.
Record represents (d : database) (st : store) : Prop := mkRep
  { rp_versions : versions d;
    rp_cap : zassoc meta_MaxHistorySize (d_meta d) = Some (st_cap st);
    rp_cap_pos : (1 <= st_cap st)%Z;
    rp_hist : d_hist d = link None (st_inputs st);
    rp_incr : incr (st_inputs st);
    rp_size : (Z.of_nat (List.length (st_inputs st)) <= st_cap st)%Z;
    rp_tags : d_tags d = [(tag_Front, last_id (st_inputs st)); (tag_Back, head_id (st_inputs st))];
    rp_vars : vars_rep (d_vars d) (st_vars st);
    rp_used : forall x q id, st_vars st x = Some (q, id) -> In id (map fst (st_inputs st)) }.

Lemma newest_all {A} n (l : list A) : (Z.of_nat (List.length l) <= n)%Z -> newest n l = l.
Proof. intros H. unfold newest. replace (List.length l - Z.to_nat n) with 0 by lia. reflexivity. Qed.
Lemma newest_drop {A} n (a : A) l : (n <= Z.of_nat (List.length l))%Z -> newest n (a :: l) = newest n l.
Proof.
  intros H. unfold newest. cbn [List.length]. replace (S (List.length l) - Z.to_nat n) with (S (List.length l - Z.to_nat n)) by lia. reflexivity.
Qed.
Lemma newest_suffix {A} n (l : list A) : exists pre, l = pre ++ newest n l.
Proof. exists (firstn (List.length l - Z.to_nat n) l). symmetry. apply firstn_skipn. Qed.
Lemma newest_length {A} n (l : list A) : (0 <= n)%Z -> Z.of_nat (List.length (newest n l)) = Z.min n (Z.of_nat (List.length l)).
Proof. intros H. unfold newest. rewrite skipn_length. lia. Qed.

Lemma link_refs p l : incr l -> forall r, In r (link p l) ->
  (forall z, h_next r = Some z -> In z (map fst l)) /\
  (forall z, h_prev r = Some z -> In z (map fst l) \/ p = Some z).
Proof.
  revert p. induction l as [|[i t] l IH]; intros p H r; [intros []|]. apply incr_cons in H as [Hi Hf].
  cbn [link]. intros [<-|Hr].
  - cbn [h_next h_prev]. split; [|intros z ->; right; reflexivity].
    intros z Hz. destruct l as [|[j u] l]; [discriminate Hz|]. injection Hz as <-. right; left; reflexivity.
  - destruct (IH (Some i) Hi r Hr) as [H1 H2]. split.
    + intros z Hz. right. auto.
    + intros z Hz. destruct (H2 z Hz) as [A|A]; [left; right; exact A|]. injection A as <-. left; left; reflexivity.
Qed.

Lemma link_filter p l i : ~ In i (map fst l) ->
  filter (fun r => negb (Z.eqb (h_id r) i)) (link p l) = link p l.
Proof.
  revert p. induction l as [|[j t] l IH]; intros p H; [reflexivity|]. cbn [link filter h_id].
  destruct (Z.eqb_spec j i) as [->|Hn]; [destruct H; left; reflexivity|]. cbn [negb]. rewrite IH; [reflexivity|].
  intros C. apply H. right. exact C.
Qed.

Lemma link_map_other p l i (g : hist_row -> hist_row) : ~ In i (map fst l) ->
  map (fun r => if Z.eqb (h_id r) i then g r else r) (link p l) = link p l.
Proof.
  revert p. induction l as [|[j t] l IH]; intros p H; [reflexivity|]. cbn [link map h_id].
  destruct (Z.eqb_spec j i) as [->|Hn]; [destruct H; left; reflexivity|]. rewrite IH; [reflexivity|].
  intros C. apply H. right. exact C.
Qed.

Lemma tx_bind_ok {A B} (m : tx A) (f : A -> tx B) d a d' : m d = Ok (a, d') -> tx_bind m f d = f a d'.
Proof. intros H. unfold tx_bind. rewrite H. reflexivity. Qed.

(** one round of eviction *)
Definition db_of (m : list (Z * Z)) (l : list (Z * str)) (vs : list var_row) : database :=
  mkDb m (link None l) [(tag_Front, last_id l); (tag_Back, head_id l)] vs.

Lemma evict_round max fuel m e1 e2 l vs : incr (e1 :: e2 :: l) -> (max < Z.of_nat (List.length (e1 :: e2 :: l)))%Z ->
  tx_evict_loop (S fuel) max (db_of m (e1 :: e2 :: l) vs) =
  tx_evict_loop fuel max (db_of m (e2 :: l) (filter (fun v => negb (Z.eqb (v_used v) (fst e1))) vs)).
Proof.
  destruct e1 as [i1 t1], e2 as [i2 t2]. intros Hi Hm.
  pose proof Hi as Hi0. apply incr_cons in Hi as [Hi Hf1]. pose proof Hi as Hi2. apply incr_cons in Hi as [Hi Hf2].
  assert (L12 : (i1 < i2)%Z) by (inversion Hf1; assumption).
  assert (N1 : ~ In i1 (map fst ((i2, t2) :: l))).
  { intros C. rewrite Forall_forall in Hf1. specialize (Hf1 _ C). lia. }
  assert (N2 : ~ In i2 (map fst l)).
  { intros C. rewrite Forall_forall in Hf2. specialize (Hf2 _ C). lia. }
  pose (rows1 := mkHist i1 t1 (Some i2) None :: mkHist i2 t2 (head_id l) None :: link (Some i2) l).
  assert (HI : forall j, j = i1 \/ j = i2 -> has_id rows1 j = true).
  { intros j Hj. apply has_id_in. destruct Hj as [->| ->]; [left|right; left]; reflexivity. }
  assert (R1 : existsb (fun r => refers i1 (h_next r) || refers i1 (h_prev r)) (mkHist i2 t2 (head_id l) None :: link (Some i2) l) = false).
  { apply not_true_is_false. rewrite existsb_exists. intros (r & Hr & E).
    change (mkHist i2 t2 (head_id l) None :: link (Some i2) l) with (link None ((i2, t2) :: l)) in Hr.
    destruct (link_refs None ((i2, t2) :: l) Hi2 r Hr) as [A B]. apply orb_true_iff in E as [E|E].
    - destruct (h_next r) as [z|]; [|discriminate E]. apply Z.eqb_eq in E. subst z. apply N1, A. reflexivity.
    - destruct (h_prev r) as [z|]; [|discriminate E]. apply Z.eqb_eq in E. subst z. destruct (B i1 eq_refl) as [B'|B']; [apply N1, B'|discriminate B']. }
  assert (R2 : existsb (fun t : Z * option Z => refers i1 (snd t)) [(tag_Front, last_id ((i1, t1) :: (i2, t2) :: l)); (tag_Back, Some i2)] = false).
  { rewrite last_id_cons by discriminate. cbn [existsb snd refers]. destruct (Z.eqb_spec i2 i1); [lia|].
    destruct (list_snoc ((i2, t2) :: l)) as [E|(l' & (j & u) & E)]; [discriminate E|]. rewrite E, last_id_snoc. cbn [refers].
    destruct (Z.eqb_spec j i1) as [->|]; [|reflexivity]. exfalso. apply N1. rewrite E, map_app. apply in_app_iff. right; left; reflexivity. }
  pose (lst := last_id ((i1, t1) :: (i2, t2) :: l)).
  cbn [tx_evict_loop].
  rewrite (tx_bind_ok _ _ _ (Z.of_nat (List.length ((i1, t1) :: (i2, t2) :: l))) (db_of m ((i1, t1) :: (i2, t2) :: l) vs))
    by (unfold sql_hist_count; cbn [db_of d_hist]; rewrite link_length; reflexivity).
  destruct (Z.leb_spec (Z.of_nat (List.length ((i1, t1) :: (i2, t2) :: l))) max); [lia|].
  rewrite (tx_bind_ok _ _ _ i1 (db_of m ((i1, t1) :: (i2, t2) :: l) vs)) by reflexivity.
  rewrite (tx_bind_ok _ _ _ i2 (db_of m ((i1, t1) :: (i2, t2) :: l) vs)).
  2:{ unfold not_null. rewrite (tx_bind_ok _ _ _ (Some i2) (db_of m ((i1, t1) :: (i2, t2) :: l) vs)); [reflexivity|].
      unfold sql_hist_next. cbn [db_of d_hist link find_hist h_id]. rewrite Z.eqb_refl. reflexivity. }
  rewrite (tx_bind_ok _ _ _ tt (mkDb m rows1 [(tag_Front, lst); (tag_Back, Some i1)] vs)).
  2:{ unfold sql_hist_clear_prev, set_hist. cbn [db_of d_meta d_hist d_tags d_vars link map h_id h_input h_next].
      destruct (Z.eqb_spec i1 i2); [lia|]. rewrite Z.eqb_refl. rewrite (link_map_other (Some i2) l i2) by exact N2. reflexivity. }
  rewrite (tx_bind_ok _ _ _ tt (mkDb m rows1 [(tag_Front, lst); (tag_Back, Some i2)] vs)).
  2:{ unfold sql_tag_update. cbn [d_tags d_hist]. change (zassoc tag_Back _) with (Some (Some i1)). cbv iota.
      cbn [fk_ok]. rewrite HI by auto. reflexivity. }
  rewrite (tx_bind_ok _ _ _ tt (db_of m ((i2, t2) :: l) (filter (fun v => negb (Z.eqb (v_used v) i1)) vs))); [reflexivity|].
  unfold sql_hist_delete. cbn [d_hist d_tags d_vars d_meta]. rewrite HI by auto.
  assert (FR : filter (fun r => negb (h_id r =? i1)%Z) rows1 = mkHist i2 t2 (head_id l) None :: link (Some i2) l).
  { unfold rows1. cbn [filter h_id]. rewrite Z.eqb_refl. destruct (Z.eqb_spec i2 i1); [lia|]. cbn [negb].
    rewrite (link_filter (Some i2) l i1) by (intros C; apply N1; right; exact C). reflexivity. }
  rewrite FR. unfold lst. rewrite R1, R2. cbn [orb andb]. unfold db_of. rewrite last_id_cons by discriminate. reflexivity.
Qed.

Lemma evict_spec max m : (1 <= max)%Z -> forall l fuel vs f, incr l -> List.length l < fuel -> vars_rep vs f ->
  (forall x q id, f x = Some (q, id) -> In id (map fst l)) ->
  exists vs', tx_evict_loop fuel max (db_of m l vs) = Ok (tt, db_of m (newest max l) vs') /\
    vars_rep vs' (restrict (has_input (newest max l)) f).
Proof.
  intros Hmax. induction l as [|e1 l IH]; intros fuel vs f Hi Hfu Hv Hu; (destruct fuel as [|fuel]; [cbn in Hfu; lia|]).
  - exists vs. rewrite newest_all by (cbn [List.length]; lia). split.
    { cbn [tx_evict_loop]. unfold tx_bind, sql_hist_count. cbn [db_of d_hist link List.length].
      destruct (Z.leb_spec (Z.of_nat 0) max); [reflexivity|lia]. }
    eapply vars_rep_ext; [|exact Hv]. intros x. unfold restrict.
    destruct (f x) as [[q id]|] eqn:E; [destruct (Hu _ _ _ E)|reflexivity].
  - destruct (Z_le_gt_dec (Z.of_nat (List.length (e1 :: l))) max) as [Hle|Hgt].
    + exists vs. rewrite newest_all by exact Hle. split.
      * cbn [tx_evict_loop]. unfold tx_bind, sql_hist_count. cbn [db_of d_hist]. rewrite link_length.
        destruct (Z.leb_spec (Z.of_nat (List.length (e1 :: l))) max); [reflexivity|lia].
      * eapply vars_rep_ext; [|exact Hv]. intros x. unfold restrict. destruct (f x) as [[q id]|] eqn:E; [|reflexivity].
        apply Hu in E. apply has_input_in in E. rewrite E. reflexivity.
    + destruct l as [|e2 l]; [cbn [List.length] in Hgt; lia|]. rewrite evict_round by (assumption || lia).
      assert (Hi' : incr (e2 :: l)) by (destruct e1; apply incr_cons in Hi; tauto).
      assert (NI : ~ In (fst e1) (map fst (e2 :: l))).
      { destruct e1 as [i1 t1]. apply incr_cons in Hi as [_ Hf]. intros C. rewrite Forall_forall in Hf. specialize (Hf _ C). cbn in Hf. lia. }
      destruct (IH fuel (filter (fun v => negb (Z.eqb (v_used v) (fst e1))) vs) (restrict (fun id => negb (Z.eqb id (fst e1))) f) Hi') as (vs' & E & R).
      { cbn [List.length] in *. lia. }
      { apply (vars_rep_filter vs f (fun id => negb (Z.eqb id (fst e1)))), Hv. }
      { intros x q id H. unfold restrict in H. destruct (f x) as [[q' id']|] eqn:Ef; [|discriminate H].
        destruct (Z.eqb_spec id' (fst e1)) as [->|Hn]; [discriminate H|]. cbn [negb] in H. injection H as <- <-.
        apply Hu in Ef as [Ef|Ef]; [congruence|exact Ef]. }
      exists vs'. rewrite newest_drop by (cbn [List.length] in *; lia). split; [exact E|].
      eapply vars_rep_ext; [|exact R]. intros x. unfold restrict. destruct (f x) as [[q id]|] eqn:Ef; [|reflexivity].
      destruct (Z.eqb_spec id (fst e1)) as [->|Hn]; cbn [negb]; [|reflexivity].
      destruct (has_input (newest max (e2 :: l)) (fst e1)) eqn:Eh; [|reflexivity]. exfalso. apply has_input_in in Eh.
      apply NI. destruct (newest_suffix max (e2 :: l)) as [pre Ep]. rewrite Ep, map_app. apply in_app_iff. right. exact Eh.
Qed.
