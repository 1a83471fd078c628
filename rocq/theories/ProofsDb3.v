(** ProofsDb3.v -- any schedule of calls on the tables behaves like the abstract store. *)
From Verif Require Import Base Position Num TokenTypes Errors SavedData Sessions SpecEval SpecHistory ProofsLex ProofsText ProofsNum ProofsEval ProofsDb ProofsDb2.
From Coq Require Import String Sorted.
Local Open Scope nat_scope.
Local Open Scope list_scope.

(** Where a session's scrollback is: [left] are the inputs it may still fetch (newest first). *)
Definition cursor (inputs : list (Z * str)) (pos : option Z) (left : list (Z * str)) : Prop :=
  exists dropped kept newer,
    rev left = dropped ++ kept /\ inputs = kept ++ newer /\ incr (rev left ++ newer) /\
    (kept <> [] -> pos = last_id kept) /\
    (kept = [] -> pos = None \/ exists id, pos = Some id /\ In id (map fst (rev left))) /\
    (inputs = [] -> left = []).

Lemma app_split {A} (a b c d : list A) : a ++ b = c ++ d ->
  (exists x, a = c ++ x /\ d = x ++ b) \/ (exists x, c = a ++ x /\ b = x ++ d).
Proof.
  revert c. induction a as [|y a IH]; intros [|z c] H; cbn in H.
  - left. exists []. auto.
  - right. exists (z :: c). auto.
  - left. exists (y :: a). auto.
  - injection H as <- H. destruct (IH c H) as [(x & -> & ->)|(x & -> & ->)]; [left|right]; exists x; auto.
Qed.
Lemma last_id_app a b : b <> [] -> last_id (a ++ b) = last_id b.
Proof. intros H. destruct (exists_last H) as (l & (i & t) & ->). rewrite app_assoc, !last_id_snoc. reflexivity. Qed.
Lemma last_id_in l id : last_id l = Some id -> In id (map fst l).
Proof.
  destruct (list_snoc l) as [->|(l' & (i & t) & ->)]; [discriminate|]. rewrite last_id_snoc. intros E. injection E as ->.
  rewrite map_app. apply in_app_iff. right; left; reflexivity.
Qed.
Lemma last_id_none l : last_id l = None -> l = [].
Proof. destruct (list_snoc l) as [->|(l' & (i & t) & ->)]; [auto|]. rewrite last_id_snoc. discriminate. Qed.

Lemma cursor_open inputs : incr inputs -> cursor inputs (last_id inputs) (rev inputs).
Proof.
  intros H. exists [], inputs, []. rewrite rev_involutive, !app_nil_r. repeat split; auto.
  - intros ->. left. reflexivity.
  - intros ->. reflexivity.
Qed.

Lemma cursor_suffix pre inputs pos left : cursor (pre ++ inputs) pos left -> inputs <> [] -> cursor inputs pos left.
Proof.
  intros (dr & k & nw & E1 & E2 & Hi & P1 & P2 & _) Hne. symmetry in E2.
  destruct (app_split k nw pre inputs E2) as [(x & -> & ->)|(x & -> & ->)].
  - exists (dr ++ pre), x, nw. rewrite E1, <- app_assoc. repeat split; auto.
    + rewrite <- E1. exact Hi.
    + intros Hx. rewrite P1 by (intros C; apply app_eq_nil in C; tauto). apply last_id_app, Hx.
    + intros ->. rewrite app_nil_r in *. destruct pre as [|e pre].
      * rewrite <- E1. apply P2. reflexivity.
      * right. rewrite P1 by discriminate. destruct (last_id (e :: pre)) as [id|] eqn:L; [|apply last_id_none in L; discriminate].
        exists id. split; [reflexivity|]. rewrite map_app, in_app_iff. right. apply last_id_in, L.
    + intros C. contradiction.
  - exists (rev left), [], inputs. rewrite app_nil_r. repeat split; auto.
    + rewrite app_assoc in Hi. apply incr_app in Hi as (Ha & Hb & Hc). apply incr_app in Ha as (Ha & _ & _).
      apply incr_app. split; [exact Ha|]. split; [exact Hb|]. intros u v Hu Hv. apply Hc; [|exact Hv].
      rewrite map_app. apply in_app_iff. auto.
    + intros C. congruence.
    + intros _. destruct k as [|e k]; [apply P2; reflexivity|]. right. rewrite P1 by discriminate.
      destruct (last_id (e :: k)) as [id|] eqn:L; [|apply last_id_none in L; discriminate].
      exists id. split; [reflexivity|]. rewrite E1, map_app, in_app_iff. right. apply last_id_in, L.
    + intros C. contradiction.
Qed.

Lemma cursor_snoc inputs pos left t : incr inputs -> cursor inputs pos left -> cursor (inputs ++ [(next_id inputs, t)]) pos left.
Proof.
  intros Hin (dr & k & nw & E1 & E2 & Hi & P1 & P2 & P3).
  exists dr, k, (nw ++ [(next_id inputs, t)]). repeat split; auto.
  - rewrite E2, app_assoc. reflexivity.
  - rewrite app_assoc. apply incr_app. split; [exact Hi|]. split; [apply incr_cons; repeat constructor|].
    intros x y Hx [<-|[]]. cbn [fst]. pose proof (next_id_above inputs Hin) as Hab.
    rewrite E1, <- app_assoc, <- E2, map_app, in_app_iff in Hx. destruct Hx as [Hx|Hx]; [|apply Hab, Hx].
    destruct inputs as [|[j u] inputs].
    + rewrite (P3 eq_refl) in E1. symmetry in E1. apply app_eq_nil in E1 as [-> _]. destruct Hx.
    + rewrite E1, <- app_assoc, <- E2 in Hi. apply incr_app in Hi as (_ & _ & Hi).
      specialize (Hi x j Hx (or_introl eq_refl)). specialize (Hab j (or_introl eq_refl)). lia.
  - intros C. apply app_eq_nil in C as [_ C]. discriminate C.
Qed.

Lemma newest_nonnil {A} n (l : list A) : (1 <= n)%Z -> l <> [] -> newest n l <> [].
Proof.
  intros Hn Hl C. pose proof (newest_length n l ltac:(lia)) as L. rewrite C in L. destruct l; [congruence|]. cbn [List.length] in L. lia.
Qed.
Lemma cursor_newest n inputs pos left : (1 <= n)%Z -> cursor inputs pos left -> cursor (newest n inputs) pos left.
Proof.
  intros Hn H. destruct inputs as [|e l].
  - unfold newest. rewrite skipn_nil. exact H.
  - destruct (newest_suffix n (e :: l)) as [pre E]. eapply cursor_suffix; [rewrite <- E; exact H|].
    apply newest_nonnil; [exact Hn|discriminate].
Qed.

Lemma spec_call_cursor c st pos left : incr (st_inputs st) -> (1 <= st_cap st)%Z -> cursor (st_inputs st) pos left ->
  cursor (st_inputs (fst (spec_call c st))) pos left.
Proof.
  intros Hi Hc H. destruct c; cbn [spec_call fst st_inputs]; auto.
  - cbn [shrink st_inputs]. apply cursor_newest; [exact Hc|]. apply cursor_snoc; auto.
  - destruct (has_input (st_inputs st) id); exact H.
  - destruct (st_vars st name) as [[q k]|]; [|exact H]. destruct (has_input (st_inputs st) id); exact H.
  - destruct (Z.ltb_spec size 1); [exact H|]. cbn [shrink fst st_inputs]. apply cursor_newest; auto.
Qed.

(** fetching *)
Lemma find_link p a i t b : ~ In i (map fst a) ->
  find_hist (link p (a ++ (i, t) :: b)) i = Some (mkHist i t (head_id b) (match a with [] => p | _ => last_id a end)).
Proof.
  revert p. induction a as [|[j u] a IH]; intros p H.
  - cbn [app link find_hist h_id]. rewrite Z.eqb_refl. reflexivity.
  - cbn [app link find_hist h_id]. destruct (Z.eqb_spec j i) as [->|]; [destruct H; left; reflexivity|].
    rewrite IH by (intros C; apply H; right; exact C). f_equal. f_equal.
    destruct a as [|e a]; [reflexivity|]. rewrite (last_id_cons (j, u)) by discriminate. reflexivity.
Qed.
Lemma find_link_none p l i : ~ In i (map fst l) -> find_hist (link p l) i = None.
Proof.
  revert p. induction l as [|[j u] l IH]; intros p H; [reflexivity|]. cbn [link find_hist h_id].
  destruct (Z.eqb_spec j i) as [->|]; [destruct H; left; reflexivity|]. apply IH. intros C; apply H; right; exact C.
Qed.

Lemma cursor_fetch inputs id left : cursor inputs (Some id) left ->
  (exists t rest, left = (id, t) :: rest /\ In (id, t) inputs /\
     exists prev next, find_hist (link None inputs) id = Some (mkHist id t next prev) /\ cursor inputs prev rest) \/
  (find_hist (link None inputs) id = None /\ cursor inputs None left /\
   forall e, In e left -> ~ In (fst e) (map fst inputs)).
Proof.
  intros (dr & k & nw & E1 & E2 & Hi & P1 & P2 & P3).
  destruct (list_snoc k) as [->|(k' & (j & u) & ->)].
  - right. cbn [app] in E2. subst nw. rewrite app_nil_r in E1. pose proof Hi as Hi'. apply incr_app in Hi' as (_ & _ & Hx).
    assert (D : forall x, In x (map fst (rev left)) -> ~ In x (map fst inputs)).
    { intros x Hx1 Hx2. specialize (Hx x x Hx1 Hx2). lia. }
    destruct (P2 eq_refl) as [C|(id' & C & Hid)]; [discriminate C|]. injection C as <-.
    split; [apply find_link_none, D, Hid|]. split.
    + exists dr, [], inputs. rewrite app_nil_r. repeat split; auto; try (intros C; congruence).
    + intros e He. apply D. apply in_map. apply -> in_rev. exact He.
  - left. specialize (P1 ltac:(intros C; apply app_eq_nil in C as [_ C]; discriminate C)). rewrite last_id_snoc in P1. injection P1 as <-.
    assert (EL : left = (id, u) :: rev k' ++ rev dr).
    { rewrite <- (rev_involutive left), E1, !rev_app_distr. reflexivity. }
    exists u, (rev k' ++ rev dr). split; [exact EL|]. split.
    { rewrite E2. rewrite !in_app_iff. left; right; left; reflexivity. }
    assert (Hk : incr (k' ++ (id, u) :: nw)).
    { rewrite E1 in Hi. rewrite <- !app_assoc in Hi. apply incr_app in Hi as (_ & Hi & _). exact Hi. }
    exists (last_id k'), (head_id nw). rewrite E2, <- app_assoc. cbn [app]. split.
    + rewrite find_link; [destruct k'; reflexivity|]. apply incr_app in Hk as (_ & _ & Hk). intros C. specialize (Hk id id C (or_introl eq_refl)). lia.
    + exists dr, k', ((id, u) :: nw).
      assert (ER : rev (rev k' ++ rev dr) = dr ++ k') by (rewrite rev_app_distr, !rev_involutive; reflexivity).
      rewrite ER. repeat split; auto.
      * rewrite E1 in Hi. rewrite <- !app_assoc in *. exact Hi.
      * intros ->. left. reflexivity.
      * intros C. apply app_eq_nil in C as [_ C]. discriminate C.
Qed.

(** ** Worlds *)
Definition corresponds (w : world) (sw : sworld) : Prop :=
  match sw_store sw with
  | None => w_file w = empty_db /\ (forall i, w_pos w i = None) /\ forall i, sw_left sw i = None
  | Some st =>
      represents (w_file w) st /\
      forall i, match w_pos w i, sw_left sw i with
                | None, None => True
                | Some pos, Some lf => cursor (st_inputs st) pos lf
                | _, _ => False
                end
  end.

Lemma set_pos_same f i p j : f i = Some p -> set_pos f i p j = f j.
Proof. intros H. unfold set_pos. destruct (Nat.eqb_spec j i) as [->|]; congruence. Qed.

Lemma after_call {A} w i pos (f : A -> reply) (m : tx A) :
  after w i f (sd_call m (mkSD (w_file w) pos [false])) =
  let r := tx_reply (tx_bind m (fun a => tx_ret (f a)) (w_file w)) (w_file w) in
  (mkWorld (fst r) (set_pos (w_pos w) i pos), snd r).
Proof.
  unfold after, sd_call, tx_bind, tx_ret. cbn [sd_faults sd_db sd_pos tl].
  destruct (m (w_file w)) as [[a d]|e|p]; reflexivity.
Qed.
Lemma step_call i c w pos : w_pos w i = Some pos -> c <> Open -> c <> PrevInput ->
  step i false c w =
  let r := tx_reply (tx_of c (w_file w)) (w_file w) in
  (mkWorld (fst r) (set_pos (w_pos w) i pos), snd r).
Proof.
  intros Hp Ho Hn. unfold step.
  destruct c; try congruence; rewrite Hp; apply after_call.
Qed.
Lemma step_fault i c w pos : w_pos w i = Some pos -> c <> Open -> (c = PrevInput -> pos <> None) ->
  step i true c w = (mkWorld (w_file w) (set_pos (w_pos w) i pos), RError SqliteError).
Proof.
  intros Hp Ho Hn. unfold step. destruct c; try congruence; rewrite Hp; try reflexivity.
  unfold get_prev_input_history. cbn [sd_pos]. destruct pos as [id|]; [reflexivity|]. exfalso. apply Hn; reflexivity.
Qed.
Lemma step_closed i fault c w : w_pos w i = None -> c <> Open -> step i fault c w = (w, RClosed).
Proof. intros Hp Ho. unfold step. destruct c; try congruence; rewrite Hp; reflexivity. Qed.
Lemma step_prev_none i fault w : w_pos w i = Some None ->
  step i fault PrevInput w = (mkWorld (w_file w) (set_pos (w_pos w) i None), RInput None).
Proof. intros Hp. unfold step. rewrite Hp. reflexivity. Qed.
Lemma step_prev i w id : w_pos w i = Some (Some id) ->
  step i false PrevInput w =
  match find_hist (d_hist (w_file w)) id with
  | Some r => (mkWorld (w_file w) (set_pos (w_pos w) i (h_prev r)), RInput (Some (h_input r)))
  | None => (mkWorld (w_file w) (set_pos (w_pos w) i None), RInput None)
  end.
Proof.
  intros Hp. unfold step. rewrite Hp. unfold get_prev_input_history, sd_call. cbn [sd_pos sd_faults sd_db].
  destruct (find_hist (d_hist (w_file w)) id) as [r|]; reflexivity.
Qed.
Lemma call_cases c : c = Open \/ c = PrevInput \/ (c <> Open /\ c <> PrevInput).
Proof. destruct c; auto; right; right; split; discriminate. Qed.

Lemma step_refines i fault c w sw : corresponds w sw -> (forall x q id, c = SetVariable x q id -> canon q) ->
  exists sw', sstep i fault c sw sw' (snd (step i fault c w)) /\ corresponds (fst (step i fault c w)) sw'.
Proof.
  intros H Hq. destruct (call_cases c) as [->|Hc].
  { (* opening *)
    unfold step, sd_open, sd_call. cbn [sd_faults sd_db sd_pos]. destruct fault.
    { exists sw. split; [apply ss_fault; auto|]. cbn [fst]. destruct w; exact H. }
    destruct sw as [[st|] left]; cbn [corresponds sw_store sw_left] in H.
    - destruct H as [H Hl]. rewrite (open_rep _ _ H). cbn [fst snd sd_db sd_pos]. eexists. split; [apply ss_open; reflexivity|].
      cbn. split; [exact H|]. intros j. unfold set_pos, set_left. destruct (Nat.eqb j i); [|apply Hl]. apply cursor_open, H.
    - destruct H as (Hf & Hp & Hl). rewrite Hf, open_empty. eexists. split; [apply ss_create; reflexivity|].
      cbn. split; [apply created_rep|]. intros j. unfold set_pos, set_left. destruct (Nat.eqb j i).
      + apply (cursor_open []). constructor.
      + rewrite Hp, Hl. exact I. }
  assert (Hno : c <> Open) by (destruct Hc as [->|[]]; [discriminate|assumption]).
  destruct (w_pos w i) as [pos|] eqn:Ep.
  2:{ rewrite step_closed by assumption. exists sw. split; [|exact H]. apply ss_closed; [exact Hno|].
      unfold corresponds in H. destruct (sw_store sw) as [st|]; [|apply H]. destruct H as [_ H]. specialize (H i). rewrite Ep in H.
      destruct (sw_left sw i); [destruct H|reflexivity]. }
  destruct sw as [[st|] left]; cbn [corresponds sw_store sw_left] in H.
  2:{ destruct H as (_ & H & _). rewrite H in Ep. discriminate Ep. }
  destruct H as [H Hl]. pose proof (Hl i) as Hi. rewrite Ep in Hi. destruct (left i) as [lf|] eqn:El; [|destruct Hi].
  assert (Hcorr : forall p, cursor (st_inputs st) p lf -> corresponds (mkWorld (w_file w) (set_pos (w_pos w) i p)) (mkSWorld (Some st) left)).
  { intros p Hp. cbn. split; [exact H|]. intros j. unfold set_pos. destruct (Nat.eqb_spec j i) as [->|]; [rewrite El; exact Hp|apply Hl]. }
  destruct Hc as [->|[_ Hnp]].
  - (* fetching *)
    destruct pos as [id|].
    2:{ rewrite step_prev_none by exact Ep. exists (mkSWorld (Some st) left). split; [|apply Hcorr, Hi].
        eapply ss_prev_end; [exact El|]. destruct Hi as (dr & k & nw & E1 & E2 & Hinc & P1 & P2 & P3).
        destruct k as [|e k]; [|specialize (P1 ltac:(discriminate)); symmetry in P1; apply last_id_none in P1; discriminate].
        cbn in E2. subst nw. apply incr_app in Hinc as (_ & _ & Hx). intros e He C.
        specialize (Hx (fst e) (fst e)). rewrite map_rev in Hx. specialize (Hx ltac:(apply -> in_rev; apply in_map; exact He) C). lia. }
    destruct fault.
    { rewrite (step_fault _ _ _ _ Ep) by (auto; discriminate). exists (mkSWorld (Some st) left). split; [|apply Hcorr, Hi].
      apply ss_fault; [reflexivity|]. right. cbn. congruence. }
    rewrite (step_prev _ _ _ Ep). rewrite (rp_hist _ _ H).
    destruct (cursor_fetch _ _ _ Hi) as [(t & rest & -> & Hin & prev & next & -> & Hcur)|(-> & Hcur & Hout)].
    + exists (mkSWorld (Some st) (set_left left i rest)). split; [eapply ss_prev; eauto|].
      cbn. split; [exact H|]. intros j. unfold set_pos, set_left. destruct (Nat.eqb_spec j i) as [->|]; [exact Hcur|apply Hl].
    + exists (mkSWorld (Some st) left). split; [eapply ss_prev_end; eauto|]. apply Hcorr, Hcur.
  - destruct fault.
    { rewrite (step_fault _ _ _ _ Ep) by (auto; congruence). exists (mkSWorld (Some st) left). split; [|apply Hcorr, Hi].
      apply ss_fault; [reflexivity|]. right. cbn. congruence. }
    rewrite (step_call _ _ _ _ Ep Hno Hnp). cbv zeta. destruct (call_spec c _ _ H Hq Hno Hnp) as [Er Hr]. cbn [fst snd]. rewrite Er.
    eexists. split; [apply ss_call; auto; congruence|]. cbn. split; [exact Hr|]. intros j. rewrite (set_pos_same _ _ _ _ Ep).
    specialize (Hl j). destruct (w_pos w j), (left j); auto. apply spec_call_cursor; [apply H|apply H|exact Hl].
Qed.

Lemma run_refines sch : forall w sw, corresponds w sw -> lowest_terms sch ->
  exists sw', srun sch sw sw' (snd (run sch w)) /\ corresponds (fst (run sch w)) sw'.
Proof.
  induction sch as [|[[i fault] c] sch IH]; intros w sw H Hq.
  - exists sw. split; [constructor|exact H].
  - destruct (step_refines i fault c w sw H) as (sw1 & S1 & H1).
    { intros x q id ->. apply (Hq i fault x q id). left. reflexivity. }
    cbn [run]. destruct (step i fault c w) as [w1 r]. cbn [fst snd] in *.
    destruct (IH w1 sw1 H1) as (sw2 & S2 & H2).
    { intros j f x q id Hj. apply (Hq j f x q id). right. exact Hj. }
    destruct (run sch w1) as [w2 rs]. cbn [fst snd] in *. exists sw2. split; [econstructor; eauto|exact H2].
Qed.
Lemma fresh_corresponds : corresponds fresh sfresh.
Proof. repeat split. Qed.
