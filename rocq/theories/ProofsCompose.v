(** ProofsCompose.v -- replacing operands by others of the same value; what a reply depends on. *)
From Verif Require Import Base Position Num TokenTypes Errors Token SavedData Variables InputHistory
  SyntaxTree Commands Calculate Editor Sessions SpecGrammar SpecEval SpecPrint SpecHistory SpecEditor SpecCalc SpecSession SpecCompose.
From Verif Require Import ProofsNum ProofsParse2 ProofsParse3 ProofsEval ProofsEval2 ProofsEval3 ProofsPrint4 ProofsCalc2 ProofsCalc6 ProofsSession2 ProofsPure.
From Coq Require Import String Lia.
Local Open Scope list_scope.

Lemma same_res_bind {A B} (x y : outcome failure A) (f g : A -> outcome failure B) :
  same_res x y -> (forall v, same_res (f v) (g v)) -> same_res (bind x f) (bind y g).
Proof. destruct x, y; cbn; intros H K; try contradiction; auto. subst. apply K. Qed.

Lemma replaced_app t b us : forall vs ws, replaced t b (us ++ vs) ws -> exists w1 w2, ws = w1 ++ w2 /\ replaced t b us w1 /\ replaced t b vs w2.
Proof.
  induction us as [|u us IH]; intros vs ws H; [exists [], ws; repeat split; [constructor|exact H]|].
  cbn in H. inversion H; subst.
  - match goal with K : replaced _ _ (us ++ vs) _ |- _ => destruct (IH _ _ K) as (w1 & w2 & -> & A & B) end. exists (u :: w1), w2. repeat split; [constructor; exact A|exact B].
  - match goal with K : replaced _ _ (us ++ vs) _ |- _ => destruct (IH _ _ K) as (w1 & w2 & -> & A & B) end. exists (b ++ w1), w2. rewrite app_assoc. repeat split; [constructor; exact A|exact B].
Qed.
Lemma replaced_other t b u us ws : u <> t -> replaced t b (u :: us) ws -> exists ws', ws = u :: ws' /\ replaced t b us ws'.
Proof. intros N H. inversion H; subst; [eauto|congruence]. Qed.
Lemma replaced_refl t b us : replaced t b us us.
Proof. induction us; constructor; assumption. Qed.

(** the same on positioned tokens *)
Definition rep (t : token) (b : list token) (ts ts' : list ptoken) : Prop := replaced t b (written ts) (written ts').
Lemma rep_app t b ts us ts' : rep t b (ts ++ us) ts' -> exists a c, ts' = a ++ c /\ rep t b ts a /\ rep t b us c.
Proof.
  unfold rep, written. rewrite map_app. intros H. destruct (replaced_app _ _ _ _ _ H) as (w1 & w2 & E & A & B).
  apply map_eq_app in E as (a & c & -> & <- & <-). eauto.
Qed.
Lemma rep_other t b u p ts ts' : u <> t -> rep t b (tk u p :: ts) ts' -> exists p' us, ts' = tk u p' :: us /\ rep t b ts us.
Proof.
  unfold rep, written. cbn [map pd_value]. intros N H. destruct (replaced_other _ _ _ _ _ N H) as (ws & E & A).
  destruct ts' as [|[u' p'] us]; [discriminate E|]. cbn in E. injection E as -> <-. eauto.
Qed.
Lemma rep_nil t b ts' : rep t b [] ts' -> ts' = [].
Proof. unfold rep, written. cbn. intros H. inversion H as [E| |]. destruct ts'; [reflexivity|discriminate]. Qed.
Lemma rep_refl t b ts : rep t b ts ts.
Proof. apply replaced_refl. Qed.
(** one token *)
Lemma rep_one t b u p ts' : rep t b [tk u p] ts' -> (exists p', ts' = [tk u p']) \/ (u = t /\ written ts' = b).
Proof.
  unfold rep, written. cbn [map pd_value]. remember (map pd_value ts') as ws eqn:E. intros H. inversion H as [|u0 us zs K|us zs K]; subst.
  - inversion K; subst. destruct ts' as [|[u' p'] [|]]; try discriminate. match goal with E : _ = map _ _ |- _ => cbn in E; injection E as <- end. left. eauto.
  - right. inversion K; subst. rewrite app_nil_r in *. auto.
Qed.

Lemma simple_alone t k ts n : simple t -> derives k ts n -> k <= 1 -> forall p rest, ts = tk t p :: rest -> rest = [].
Proof.
  intros S D. revert S. induction D; intros S Hk p0 rest E; try (injection E; intros; congruence);
    try (injection E as E _ _; destruct S as [(v0 & S)|(y0 & S)]; congruence).
  - destruct o; cbn in *; lia.
  - apply IHD with (p := p0); auto. lia.
Qed.

Section Replace.
  Context (pr : profile) (a : args) (lk : str -> position -> outcome failure Q) (t : token) (body : list token) (v : Q).
  Hypothesis Hlk : forall x p p', same_res (lk x p) (lk x p').
  Hypothesis Hs : simple t.
  Hypothesis Ht : forall p n, derives 0 [tk t p] n -> pev pr a lk n = Ok v.
  Hypothesis Hb : forall us, written us = body -> exists m, derives 5 us m /\ pev pr a lk m = Ok v.
  Notation rp := (rep t (in_parentheses body)).

  Lemma written_parens us : written us = in_parentheses body -> exists p es q, us = tk TOpen p :: es ++ [tk TClose q] /\ written es = body.
  Proof.
    unfold written, in_parentheses. destruct us as [|[u p] us]; [discriminate|]. cbn. intros E. injection E as -> E.
    apply map_eq_app in E as (es & l & -> & <- & E). destruct l as [|[w q] [|]]; try discriminate. cbn in E. injection E as ->. eauto.
  Qed.
  Lemma derives_up k ts n : derives 0 ts n -> derives k ts n.
  Proof. induction k; intros H; [exact H|apply d_weaken; auto]. Qed.

  Lemma simple_not u : (forall w, u <> TNumber w) -> (forall y, u <> TVariable y) -> u <> t.
  Proof. intros A B ->. destruct Hs as [(w & E)|(y & E)]; [exact (A _ E)|exact (B _ E)]. Qed.
  Ltac other := apply simple_not; intros ? ?; discriminate.

  Lemma replace_node :
    (forall k ts n, derives k ts n -> forall ts', rp ts ts' -> exists n', derives k ts' n' /\ same_res (pev pr a lk n) (pev pr a lk n')) /\
    (forall ts ns, derives_args ts ns -> forall ts', rp ts ts' -> exists ns', derives_args ts' ns' /\ same_res (pevs pr a lk ns) (pevs pr a lk ns')) /\
    (forall ts ns, derives_list ts ns -> forall ts', rp ts ts' -> exists ns', derives_list ts' ns' /\ same_res (pevs pr a lk ns) (pevs pr a lk ns')).
  Proof.
    assert (One : forall u p n ts', derives 0 [tk u p] n -> (forall p', exists n', derives 0 [tk u p'] n' /\ same_res (pev pr a lk n) (pev pr a lk n')) ->
      rp [tk u p] ts' -> exists n', derives 0 ts' n' /\ same_res (pev pr a lk n) (pev pr a lk n')).
    { intros u p n ts' D Sm R. apply rep_one in R as [(p' & ->)|(-> & W)]; [apply Sm|].
      destruct (written_parens _ W) as (p1 & es & q1 & -> & We). destruct (Hb es We) as (m & Dm & Em).
      exists (NParen p1 q1 m). split; [constructor; exact Dm|]. cbn [pev]. rewrite Em, (Ht p n D). reflexivity. }
    apply derives_mutind.
    - intros w p ts' R. apply (One (TNumber w) p); [constructor| |exact R]. intros p'. exists (NNum w p'). split; [constructor|reflexivity].
    - intros y p ts' R. apply (One (TVariable y) p); [constructor| |exact R]. intros p'. exists (NVar y p'). split; [constructor|apply Hlk].
    - intros o p ts n _ IH ts' R. apply rep_other in R as (p' & us & -> & R); [|other]. destruct (IH us R) as (n' & D & S).
      exists (NUn o p' n'). split; [constructor; exact D|]. cbn [pev]. apply same_res_bind; [exact S|]. intros w. apply unary_pos.
    - intros p q ts n _ IH ts' R. apply rep_other in R as (p' & us & -> & R); [|other]. apply rep_app in R as (es & c & -> & R & Rc).
      apply rep_other in Rc as (q' & l & -> & Rc); [|other]. apply rep_nil in Rc as ->. destruct (IH es R) as (n' & D & S).
      exists (NParen p' q' n'). split; [constructor; exact D|exact S].
    - intros f p ts n D0 IH N ts' R. apply rep_other in R as (p' & us & -> & R); [|other]. destruct (IH us R) as (n' & D & S).
      destruct us as [|[u q] us].
      { exfalso. exact (proj1 derives_nonempty _ _ _ D eq_refl). }
      assert (DecT : u = TOpen \/ u <> TOpen) by (destruct u; ((left; reflexivity) || (right; discriminate))).
      destruct DecT as [->|Nu].
      + destruct ts as [|[w pw] rest]; [apply rep_nil in R; discriminate R|].
        assert (w = t) as ->.
        { unfold rep, written in R. cbn [map pd_value] in R. inversion R as [|u0 xs ys K|xs ys K]; [|reflexivity].
          subst. exfalso. exact (N pw rest eq_refl). }
        pose proof (simple_alone t 1 _ n Hs D0 (le_n 1) pw rest eq_refl) as ->.
        assert (D00 : derives 0 [tk t pw] n).
        { clear -D0 Hs. inversion D0; subst; try assumption; exfalso.
          - match goal with Hn : derives 1 [] _ |- _ => exact (proj1 derives_nonempty _ _ _ Hn eq_refl) end.
          - destruct o; cbn in *; discriminate. }
        apply rep_one in R as [(p1 & E)|(_ & W)].
        { injection E as E _ _. exfalso. exact (simple_not TOpen (fun w Q => ltac:(discriminate)) (fun w Q => ltac:(discriminate)) E). }
        destruct (written_parens _ W) as (p1 & es & q1 & E & We). injection E as -> ->. destruct (Hb es We) as (m & Dm & Em).
        exists (NFun f p' [m] (from_span p1 q1)). split; [apply d_function, da_some, dl_one; exact Dm|].
        rewrite !pev_fun. cbn [pevs]. rewrite Em, (Ht pw n D00). reflexivity.
      + exists (NFun f p' [n'] (node_position n')). split; [constructor; [exact D|intros q0 l E; injection E as -> _ _; exact (Nu eq_refl)]|].
        rewrite !pev_fun. apply same_res_bind; [|intros vs; apply function_pos]. cbn [pevs]. apply same_res_bind; [exact S|]. intros w. reflexivity.
    - intros f p o c ts ns _ IH ts' R. apply rep_other in R as (p' & us & -> & R); [|other]. apply rep_other in R as (o' & vs & -> & R); [|other].
      apply rep_app in R as (es & l & -> & R & Rc). apply rep_other in Rc as (c' & l' & -> & Rc); [|other]. apply rep_nil in Rc as ->.
      destruct (IH es R) as (ns' & D & S). exists (NFun f p' ns' (from_span o' c')). split; [constructor; exact D|].
      rewrite !pev_fun. apply same_res_bind; [exact S|]. intros ws. apply function_pos.
    - intros p ts n _ IH ts' R. apply rep_other in R as (p' & us & -> & R); [|other]. destruct (IH us R) as (n' & D & S).
      exists (NUn Negate p' n'). split; [constructor; exact D|]. cbn [pev]. apply same_res_bind; [exact S|]. intros w. apply unary_pos.
    - intros k o p ts1 ts2 x y Lv _ IH1 _ IH2 ts' R. apply rep_app in R as (us1 & us & -> & R1 & R). apply rep_other in R as (p' & us2 & -> & R2); [|other].
      destruct (IH1 us1 R1) as (x' & D1 & S1), (IH2 us2 R2) as (y' & D2 & S2). exists (NBin o p' x' y'). split; [econstructor; eassumption|].
      cbn [pev]. apply same_res_bind; [exact S1|]. intros w. apply same_res_bind; [exact S2|]. intros z. apply binary_pos.
    - intros k ts n _ IH ts' R. destruct (IH ts' R) as (n' & D & S). exists n'. split; [apply d_weaken; exact D|exact S].
    - intros ts' R. apply rep_nil in R as ->. exists []. split; [constructor|reflexivity].
    - intros ts ns _ IH ts' R. destruct (IH ts' R) as (ns' & D & S). exists ns'. split; [apply da_some; exact D|exact S].
    - intros ts n _ IH ts' R. destruct (IH ts' R) as (n' & D & S). exists [n']. split; [constructor; exact D|].
      cbn [pevs]. apply same_res_bind; [exact S|]. intros w. reflexivity.
    - intros ts p us n ns _ IH _ IH' ts' R. apply rep_app in R as (es & l & -> & R & Rc). apply rep_other in Rc as (p' & l' & -> & Rc); [|other].
      destruct (IH es R) as (n' & D & S), (IH' l' Rc) as (ns' & D' & S'). exists (n' :: ns'). split; [constructor; assumption|].
      cbn [pevs]. apply same_res_bind; [exact S|]. intros w. apply same_res_bind; [exact S'|]. intros ws. reflexivity.
  Qed.
End Replace.

(** The same tokens at other positions. *)
Lemma moved_node pr a lk ts n ts' : (forall x p p', same_res (lk x p) (lk x p')) -> derives 5 ts n -> written ts' = written ts ->
  exists n', derives 5 ts' n' /\ same_res (pev pr a lk n) (pev pr a lk n').
Proof.
  intros Hl D E. refine (proj1 (replace_node pr a lk (TNumber 1) [TNumber 1] 1 Hl _ _ _) 5 ts n D ts' _).
  - left. eauto.
  - intros p m Dm. inversion Dm; subst; reflexivity.
  - intros us W. destruct us as [|[u p] [|]]; try discriminate. cbn in W. injection W as ->. exists (NNum 1 p). split; [apply derives_up; constructor|reflexivity].
  - unfold rep. rewrite E. apply replaced_refl.
Qed.

Lemma looked_pos s x p p' : same_res (looked s x p) (looked s x p').
Proof. exact (proj2 (variable_pos x p p' s)). Qed.

Lemma pure_reply_tree pr a st lk ts t : line_tree ts t -> pure_reply pr a st lk ts =
  bind (pev pr a lk (st_root t)) (fun v => match st_var t with Some y => if st then format_result a v else Err (no_variable_store (pd_pos y)) | None => format_result a v end).
Proof.
  intros L. apply parse_iff in L. unfold pure_reply. rewrite L. destruct ts; [|reflexivity]. apply parse_iff in L. inversion L as [ts n D E|]; subst.
  exfalso. exact (proj1 derives_nonempty _ _ _ D eq_refl).
Qed.
Lemma same_reply_res r r' : same_reply r r' <-> same_res r r'.
Proof. destruct r, r'; cbn; tauto. Qed.

Lemma comes_to_pev pr a s ts v : env_ok s -> no_faults s -> comes_to pr a s ts v -> exists n, derives 5 ts n /\ pev pr a (looked s) n = Ok v.
Proof.
  intros Hs Nf (n & s' & D & E). exists n. split; [exact D|]. destruct (exec_pev pr a s n Hs Nf s (grows_refl s)) as (V & _). rewrite E in V. symmetry. exact V.
Qed.

Lemma replace_in_working_line pr ord ord' x line line' se se1 se2 r1 r2 ts ts' t p es v :
  working_session se -> is_expression (a_radix (s_args se)) line ts -> is_expression (a_radix (s_args se)) line' ts' ->
  simple t -> comes_to pr (s_args se) (after_recording se) [tk t p] v -> comes_to pr (s_args se) (after_recording se) es v ->
  replaced_in_line t (in_parentheses (written es)) ts ts' ->
  calculate pr ord x line se = (se1, r1) -> calculate pr ord' x line' se = (se2, r2) -> same_reply r1 r2.
Proof.
  intros W T T' Sm Ct Ce R C1 C2. rewrite (working_pure _ _ _ _ _ _ _ _ W T C1), (working_pure _ _ _ _ _ _ _ _ W T' C2). clear C1 C2 T T'.
  pose proof (recording_calm se W) as Nf. destruct (recording_ok se (proj1 (proj2 W))) as (Rok & _).
  set (s := after_recording se) in *. set (a := s_args se) in *.
  destruct (comes_to_pev _ _ _ _ _ Rok Nf Ct) as (nt & Dt & Et). destruct (comes_to_pev _ _ _ _ _ Rok Nf Ce) as (m & Dm & Em).
  assert (Ht : forall p n, derives 0 [tk t p] n -> pev pr a (looked s) n = Ok v).
  { intros p0 n D. destruct (moved_node pr a (looked s) _ _ [tk t p0] (looked_pos s) Dt eq_refl) as (n' & D' & S).
    assert (n' = n) as -> by (pose proof (line_tree_unique _ _ _ (lt_expression _ _ D') (lt_expression _ _ (derives_up 5 _ _ D))) as E; injection E as E; exact E).
    rewrite Et in S. cbn in S. destruct (pev pr a (looked s) n); try contradiction. congruence. }
  assert (Hb : forall us, written us = written es -> exists m, derives 5 us m /\ pev pr a (looked s) m = Ok v).
  { intros us Wu. destruct (moved_node pr a (looked s) _ _ us (looked_pos s) Dm Wu) as (n' & D' & S). exists n'. split; [exact D'|].
    rewrite Em in S. cbn in S. destruct (pev pr a (looked s) n'); try contradiction. congruence. }
  pose proof (proj1 (replace_node pr a (looked s) t (written es) v (looked_pos s) Sm Ht Hb)) as K.
  apply same_reply_res. destruct R as [ts ts' n D R|y q1 q2 q3 q4 ts ts' n D R]; destruct (K 5 ts n D ts' R) as (n' & D' & S).
  - rewrite (pure_reply_tree _ _ _ _ _ _ (lt_expression _ _ D)), (pure_reply_tree _ _ _ _ _ _ (lt_expression _ _ D')). cbn [st_root st_var].
    apply same_res_bind; [exact S|]. intros w. apply same_res_refl.
  - rewrite (pure_reply_tree _ _ _ _ _ _ (lt_assignment _ _ _ _ _ D)), (pure_reply_tree _ _ _ _ _ _ (lt_assignment _ _ _ _ _ D')). cbn [st_root st_var pd_pos].
    apply same_res_bind; [exact S|]. intros w. destruct (has_store (s_env se)); [apply same_res_refl|]. split; [reflexivity|]. cbn. split; discriminate.
Qed.

(** What a reply depends on. *)
Lemma pev_ext pr a lk lk' :
  (forall k ts n, derives k ts n -> (forall y p, In (tk (TVariable y) p) ts -> lk y p = lk' y p) -> pev pr a lk n = pev pr a lk' n) /\
  (forall ts ns, derives_args ts ns -> (forall y p, In (tk (TVariable y) p) ts -> lk y p = lk' y p) -> pevs pr a lk ns = pevs pr a lk' ns) /\
  (forall ts ns, derives_list ts ns -> (forall y p, In (tk (TVariable y) p) ts -> lk y p = lk' y p) -> pevs pr a lk ns = pevs pr a lk' ns).
Proof.
  apply derives_mutind; intros; try reflexivity.
  - cbn [pev]. match goal with H : forall y p, _ |- _ => apply H end. left. reflexivity.
  - cbn [pev]. f_equal. match goal with H : _ -> pev _ _ _ _ = _ |- _ => apply H end. intros y q Hi. match goal with H : forall y p, In _ (_ :: ts) -> _ |- _ => apply H end. right. exact Hi.
  - cbn [pev]. match goal with H : _ -> pev _ _ _ _ = _ |- _ => apply H end. intros y q' Hi. match goal with H : forall y p, In _ (_ :: ts ++ _) -> _ |- _ => apply H end. right. apply in_app_iff. left. exact Hi.
  - rewrite !pev_fun. cbn [pevs]. f_equal. f_equal. match goal with H : _ -> pev _ _ _ _ = _ |- _ => apply H end. intros y q Hi. match goal with H : forall y p, In _ (_ :: ts) -> _ |- _ => apply H end. right. exact Hi.
  - rewrite !pev_fun. f_equal. match goal with H : _ -> pevs _ _ _ _ = _ |- _ => apply H end. intros y q' Hi. match goal with H : forall y p, In _ (_ :: _ :: ts ++ _) -> _ |- _ => apply H end. right. right. apply in_app_iff. left. exact Hi.
  - cbn [pev]. f_equal. match goal with H : _ -> pev _ _ _ _ = _ |- _ => apply H end. intros y q Hi. match goal with H : forall y p, In _ (_ :: ts) -> _ |- _ => apply H end. right. exact Hi.
  - cbn [pev]. match goal with H : forall y p, In _ (ts1 ++ _) -> _ |- _ => rename H into HH end.
    match goal with H1 : _ -> pev pr a lk a0 = _, H2 : _ -> pev pr a lk b = _ |- _ => rewrite H1, H2; [reflexivity|..] end; intros y q Hi; apply HH; apply in_app_iff; [right; right|left]; exact Hi.
  - auto.
  - auto.
  - cbn [pevs]. f_equal. auto.
  - cbn [pevs]. match goal with H : forall y p, In _ (ts ++ _) -> _ |- _ => rename H into HH end.
    match goal with H1 : _ -> pev pr a lk n = _, H2 : _ -> pevs pr a lk ns = _ |- _ => rewrite H1, H2; [reflexivity|..] end; intros y q Hi; apply HH; apply in_app_iff; [right; right|left]; exact Hi.
Qed.
Lemma pure_reply_ext pr a st st' lk lk' ts : (forall y p, In (tk (TVariable y) p) ts -> lk y p = lk' y p /\ st = st') ->
  pure_reply pr a st lk ts = pure_reply pr a st' lk' ts.
Proof.
  intros H. destruct (syntax_tree_new ts) as [t|e|p] eqn:P; [|unfold pure_reply; rewrite P; reflexivity..].
  apply parse_iff in P. rewrite !(pure_reply_tree _ _ _ _ _ _ P). destruct P as [ts n D|y p q ts n D]; cbn [st_root st_var].
  - f_equal. apply (proj1 (pev_ext pr a lk lk') 5 ts n D). intros y p Hi. apply (H y p Hi).
  - assert (st = st') as -> by (apply (H y p); left; reflexivity). f_equal. apply (proj1 (pev_ext pr a lk lk') 5 ts n D). intros z r Hi. apply (H z r). right. right. exact Hi.
Qed.
Lemma reply_depends pr ord1 ord2 x line se1 se2 se1' se2' r1 r2 ts : working_session se1 -> working_session se2 -> s_args se1 = s_args se2 ->
  is_expression (a_radix (s_args se1)) line ts ->
  (forall y, mentions ts y -> (e_vars (s_env se1) = None <-> e_vars (s_env se2) = None) /\
     forall v, var_value (after_recording se1) y v <-> var_value (after_recording se2) y v) ->
  calculate pr ord1 x line se1 = (se1', r1) -> calculate pr ord2 x line se2 = (se2', r2) -> r1 = r2.
Proof.
  intros W1 W2 Ea T H C1 C2. rewrite (working_pure _ _ _ _ _ _ _ _ W1 T C1). rewrite Ea in T. rewrite (working_pure _ _ _ _ _ _ _ _ W2 T C2). rewrite <- Ea.
  destruct (recording_ok se1 (proj1 (proj2 W1))) as (R1 & V1 & _), (recording_ok se2 (proj1 (proj2 W2))) as (R2 & V2 & _).
  apply pure_reply_ext. intros y p Hi. destruct (H y (ex_intro _ p Hi)) as (Hn & Hv). split.
  - apply looked_same; auto using recording_calm. rewrite V1, V2. exact Hn.
  - unfold has_store. destruct (e_vars (s_env se1)), (e_vars (s_env se2)); auto; exfalso; [destruct Hn as [_ Hn]|destruct Hn as [Hn _]]; discriminate (Hn eq_refl).
Qed.

Lemma pev_comes_to pr a s ts n v : env_ok s -> no_faults s -> derives 5 ts n -> pev pr a (looked s) n = Ok v -> comes_to pr a s ts v.
Proof.
  intros Hs Nf D E. destruct (exec_pev pr a s n Hs Nf s (grows_refl s)) as (V & _). exists n, (fst (exec pr a n s)). split; [exact D|].
  rewrite E in V. destruct (exec pr a n s) as [s' o]. cbn in *. congruence.
Qed.
Lemma looked_value s x p v : env_ok s -> no_faults s -> var_value s x v -> looked s x p = Ok v.
Proof.
  intros Hs Nf H. destruct (looked_cases s x p Hs Nf) as [(A & _)|[(A & w & B & E)|(_ & B & _)]]; [|rewrite E; f_equal|destruct (B v H)].
  - destruct H as (m & E & _). congruence.
  - destruct H as (m & Em & H), B as (m' & Em' & B). assert (m' = m) as -> by congruence.
    destruct H as [H|(H & sd & Es & O)], B as [B|(B & sd' & Es' & O')]; try congruence. assert (sd' = sd) as -> by congruence.
    eapply on_disk_inj; [exact (proj2 Hs sd Es)| |]; eassumption.
Qed.

Lemma assigned_stands pr ord ord1 ord2 x line0 line line' se se1 se2 se3 se4 text r1 r2 y p q es n ts ts' :
  working_session se -> is_expression (a_radix (s_args se)) line0 (tk (TVariable y) p :: tk TAssign q :: es) -> derives 5 es n -> ~ mentions es y ->
  calculate pr ord x line0 se = (se1, Ok text) ->
  working_session se2 -> s_args se2 = s_args se ->
  (forall z v, z = y \/ mentions es z -> (var_value (s_env se1) z v <-> var_value (after_recording se2) z v)) ->
  is_expression (a_radix (s_args se2)) line ts -> is_expression (a_radix (s_args se2)) line' ts' ->
  replaced_in_line (TVariable y) (in_parentheses (written es)) ts ts' ->
  calculate pr ord1 x line se2 = (se3, r1) -> calculate pr ord2 x line' se2 = (se4, r2) -> same_reply r1 r2.
Proof.
  intros W T0 D Nm C W2 Ea Hv T T' R C1 C2.
  destruct (working_line _ _ _ _ _ _ _ _ W T0 C) as (P & Q). destruct (Q text y p n eq_refl (lt_assignment _ _ _ _ _ D)) as (v & Ev & Rv).
  assert (St : e_vars (s_env se) <> None).
  { rewrite (pure_reply_tree _ _ _ _ _ _ (lt_assignment _ _ _ _ _ D)) in P. cbn [st_root st_var] in P. rewrite Ev in P. cbn [bind] in P.
    unfold has_store in P. intros E. rewrite E in P. discriminate P. }
  pose proof W as (A & B & _). pose proof W2 as (A2 & B2 & _).
  pose proof (recording_calm se W) as Nf. pose proof (recording_calm se2 W2) as Nf2.
  destruct (recording_ok se B) as (Rok & Rs & _). destruct (recording_ok se2 B2) as (Rok2 & Rs2 & _).
  assert (Yv : var_value (after_recording se2) y v).
  { apply Hv; [left; reflexivity|]. destruct Rv as (m & Em & Hm). exists m. auto. }
  assert (St2 : e_vars (after_recording se2) <> None) by (destruct Yv as (m & -> & _); discriminate).
  assert (Old : forall z w, z <> y -> (var_value (after_recording se) z w <-> var_value (s_env se1) z w)).
  { intros z w Nz. destruct (calculate_expression _ _ _ _ _ _ _ _ A B T0 C) as (_ & _ & [(E & _)|(_ & _ & [((_ & _ & S & _) & _)|(y' & n' & v' & As & _ & _ & _ & (_ & _ & S & _) & _)])]).
    - rewrite E. tauto.
    - apply S.
    - destruct As as (p0 & q0 & rest & E & _). injection E as <- _ _ _. apply S. exact Nz. }
  eapply (replace_in_working_line pr ord1 ord2 x line line' se2 se3 se4 r1 r2 ts ts' (TVariable y) p es v); try eassumption.
  - right. eauto.
  - rewrite Ea. apply (pev_comes_to _ _ _ _ (NVar y p)); auto; [apply derives_up; constructor|]. cbn [pev]. apply looked_value; auto.
  - rewrite Ea. apply (pev_comes_to _ _ _ _ n); auto. rewrite <- Ev. apply (proj1 (pev_ext _ _ _ _) 5 es n D). intros z pz Hi.
    assert (Nz : z <> y) by (intros ->; apply Nm; exists pz; exact Hi).
    apply looked_same; auto.
    + rewrite Rs. split; intros E; contradiction.
    + intros w. rewrite (Old z w Nz). symmetry. apply Hv. right. exists pz. exact Hi.
Qed.
