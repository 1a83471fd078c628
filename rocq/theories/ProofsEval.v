(** ProofsEval.v -- the evaluator computes the meaning of the tree. *)
From Verif Require Import Base Position Num TokenTypes Errors SavedData Variables Operations SyntaxTree.
From Verif Require Import SpecLex SpecDecimal ProofsShow SpecEval ProofsLex ProofsText ProofsNum ProofsRoot ProofsRoot2 ProofsPower ProofsParse3.
From Coq Require Import Qabs Qpower String Lqa.
Local Open Scope Q_scope.

(** ** Reading variables *)

Lemma str_eqb_spec a b : str_eqb a b = true <-> a = b.
Proof. apply str_eqb_eq. Qed.

Lemma vs_get_insert m k v x : vs_get (vs_insert m k v) x = if str_eqb x k then Some v else vs_get m x.
Proof.
  unfold vs_insert. cbn [vs_get]. destruct (str_eqb x k) eqn:E; [reflexivity|].
  unfold vs_remove. induction m as [|[k' v'] m IH]; [reflexivity|].
  cbn [filter fst vs_get]. destruct (str_eqb k k') eqn:E1; cbn [negb vs_get].
  - apply str_eqb_spec in E1. subst k'. rewrite E. exact IH.
  - rewrite IH. reflexivity.
Qed.

Lemma find_var_some l x r : find_var l x = Some r -> In r l /\ v_name r = x.
Proof.
  induction l as [|r' l IH]; [discriminate|]. cbn [find_var].
  destruct (str_eqb (v_name r') x) eqn:E.
  - intros H. injection H as <-. apply str_eqb_spec in E. split; [left; reflexivity|exact E].
  - intros H. destruct (IH H). split; [right|]; assumption.
Qed.
Lemma find_var_none l x : find_var l x = None -> forall r, In r l -> v_name r <> x.
Proof.
  induction l as [|r' l IH]; [intros _ r []|]. cbn [find_var].
  destruct (str_eqb (v_name r') x) eqn:E; [discriminate|].
  intros H r [<-|Hr]; [|apply IH; assumption]. intros E'. apply str_eqb_spec in E'. congruence.
Qed.
Lemma row_holds_show r v : row_holds r v <-> canon v /\ v_numer r = show_Z (Qnum v) /\ v_denom r = show_Z (Zpos (Qden v)).
Proof. unfold row_holds. rewrite !show_Z_decimal. reflexivity. Qed.
Lemma row_holds_inj r v w : row_holds r v -> row_holds r w -> v = w.
Proof.
  rewrite !row_holds_show. intros (Cv & N1 & D1) (Cw & N2 & D2).
  assert (A : show_Z (Qnum v) = show_Z (Qnum w)) by congruence.
  assert (B : show_Z (Zpos (Qden v)) = show_Z (Zpos (Qden w))) by congruence.
  apply (f_equal (fun s => parse_bytes (E := unit) s 10)) in A, B. rewrite !parse_show_Z in A, B.
  injection A as A. injection B as B. destruct v, w; simpl in *. congruence.
Qed.
Lemma nodup_names l r r' : NoDup (map v_name l) -> In r l -> In r' l -> v_name r = v_name r' -> r = r'.
Proof.
  induction l as [|a l IH]; [intros _ []|]. cbn [map]. intros Hn [<-|Hr] [<-|Hr'] E; inversion Hn; subst; auto.
  - exfalso. apply H1. rewrite E. apply in_map. assumption.
  - exfalso. apply H1. rewrite <- E. apply in_map. assumption.
Qed.
Lemma on_disk_inj d x v w : rows_ok d -> on_disk d x v -> on_disk d x w -> v = w.
Proof.
  intros [Hn _] (r & Hr & Nr & Vr) (r' & Hr' & Nr' & Vr').
  assert (r = r') by (eapply nodup_names; eauto; congruence). subst r'. eapply row_holds_inj; eauto.
Qed.

Lemma tx_get_variable_ok d x : rows_ok d ->
  (exists v, tx_get_variable x d = Ok (Some v, d) /\ on_disk d x v /\ canon v) \/
  (tx_get_variable x d = Ok (None, d) /\ not_on_disk d x).
Proof.
  intros [Hn Hr]. unfold tx_get_variable. destruct (find_var (d_vars d) x) as [r|] eqn:F.
  - left. apply find_var_some in F as [Hi Hx]. destruct (Hr r Hi) as (v & Cv & Nv & Dv).
    exists v. split; [|split; [exists r; split; [exact Hi|split; [exact Hx|split; auto]]|exact Cv]].
    rewrite Nv, Dv, <- !show_Z_decimal. change VARIABLE_STORAGE_RADIX with 10%N. rewrite !parse_show_Z. cbn [bind].
    cbn [ratio_new bind].
    destruct v as [n q]. cbn [Qnum Qden]. unfold canon in Cv. rewrite Cv. reflexivity.
  - right. split; [reflexivity|]. intros r Hi. eapply find_var_none; eauto.
Qed.

(** ** What evaluation does to the state: variables may be copied from disk to memory, and
    external failures are consumed; nothing else. *)
Definition grows (s s' : env) : Prop :=
  match e_vars s, e_vars s' with
  | None, None => True
  | Some m, Some m' =>
      (forall x v, vs_get m x = Some v -> vs_get m' x = Some v) /\
      (forall x v, vs_get m x = None -> vs_get m' x = Some v ->
         exists sd, e_db s = Some sd /\ on_disk (sd_db sd) x v)
  | _, _ => False
  end /\
  match e_db s, e_db s' with
  | None, None => True
  | Some sd, Some sd' => sd_db sd = sd_db sd' /\ sd_pos sd = sd_pos sd' /\
      exists consumed, (sd_faults sd = consumed ++ sd_faults sd')%list
  | _, _ => False
  end.

Lemma grows_refl s : grows s s.
Proof.
  split.
  - destruct (e_vars s); [|exact I]. split; [auto|]. congruence.
  - destruct (e_db s); [|exact I]. split; [reflexivity|split; [reflexivity|]]. exists []. reflexivity.
Qed.
Lemma grows_trans a b c : grows a b -> grows b c -> grows a c.
Proof.
  intros [V1 D1] [V2 D2]. split.
  - destruct (e_vars a) as [m1|], (e_vars b) as [m2|], (e_vars c) as [m3|]; try contradiction; [|exact I].
    destruct V1 as [A1 B1], V2 as [A2 B2]. split; [auto|]. intros x v Hn Hs.
    destruct (vs_get m2 x) as [w|] eqn:E.
    + assert (w = v) by (apply A2 in E; congruence). subst w. apply B1; assumption.
    + destruct (B2 x v E Hs) as (sd & Es & Ho). rewrite Es in D1.
      destruct (e_db a) as [sda|]; [|contradiction]. exists sda. split; [reflexivity|].
      destruct D1 as (-> & _). exact Ho.
  - destruct (e_db a) as [x1|], (e_db b) as [x2|], (e_db c) as [x3|]; try contradiction; [|exact I].
    destruct D1 as (A1 & P1 & c1 & F1), D2 as (A2 & P2 & c2 & F2).
    split; [congruence|split; [congruence|]]. exists (c1 ++ c2)%list. rewrite F1, F2, app_assoc. reflexivity.
Qed.

Lemma grows_var_value s s' x v : env_ok s -> grows s s' -> (var_value s x v <-> var_value s' x v).
Proof.
  intros [_ Ok2] [V D]. unfold var_value. split.
  - intros (m & Em & H). rewrite Em in V. destruct (e_vars s') as [m'|]; [|contradiction].
    exists m'. split; [reflexivity|]. destruct V as [A B]. destruct H as [H|(H & sd & Es & Ho)]; [left; auto|].
    rewrite Es in D. destruct (e_db s') as [sd'|]; [|contradiction].
    destruct (vs_get m' x) as [w|] eqn:E.
    + left. destruct (B x w H E) as (sd2 & E2 & Ho2). rewrite Es in E2. injection E2 as <-.
      f_equal. eapply on_disk_inj; eauto.
    + right. split; [reflexivity|]. exists sd'. split; [reflexivity|]. destruct D as (<- & _). exact Ho.
  - intros (m' & Em & H). rewrite Em in V. destruct (e_vars s) as [m|]; [|contradiction].
    exists m. split; [reflexivity|]. destruct V as [A B]. destruct H as [H|(H & sd & Es & Ho)].
    + destruct (vs_get m x) as [w|] eqn:E; [left; apply A in E; congruence|].
      right. split; [reflexivity|]. apply B; assumption.
    + right. destruct (vs_get m x) as [w|] eqn:E; [apply A in E; congruence|].
      split; [reflexivity|]. rewrite Es in D. destruct (e_db s) as [sd0|]; [|contradiction].
      exists sd0. split; [reflexivity|]. destruct D as (-> & _). exact Ho.
Qed.
Lemma grows_same s s' : env_ok s -> grows s s' -> same_values s s'.
Proof.
  intros Hok G. pose proof G as [V D]. split; [|split].
  - destruct (e_vars s), (e_vars s'); try contradiction; split; congruence.
  - exact D.
  - intros x v. apply grows_var_value; assumption.
Qed.
Lemma grows_ok s s' : env_ok s -> grows s s' -> env_ok s'.
Proof.
  intros [O1 O2] [V D]. split.
  - intros m' x v Em Hv. rewrite Em in V. destruct (e_vars s) as [m|] eqn:Es; [|contradiction].
    destruct V as [A B]. destruct (vs_get m x) as [w|] eqn:E.
    + pose proof (A _ _ E) as E'. assert (w = v) by congruence. subst w. eapply O1; eauto.
    + destruct (B x v E Hv) as (sd & _ & r & _ & _ & C & _). exact C.
  - intros sd' Es. rewrite Es in D. destruct (e_db s) as [sd|] eqn:E; [|contradiction].
    destruct D as (<- & _). apply O2. reflexivity.
Qed.

(** results of variables do not depend on how far evaluation has got *)
Lemma grows_result s s' x p r : env_ok s -> grows s s' -> var_result s' x p r -> var_result s x p r.
Proof.
  intros Hok [V D] H. inversion H as [E|m v q Em Hv Hq|m sd v q Em Hn Es Ho Hq|m Em Hn Es|m sd Em Hn Es Ho|m sd Em Hn Es Hf]; subst r.
  - rewrite E in V. destruct (e_vars s) eqn:E'; [contradiction|]. apply vr_no_store. exact E'.
  - rewrite Em in V. destruct (e_vars s) as [m0|] eqn:E'; [|contradiction]. destruct V as [A B].
    destruct (vs_get m0 x) as [w|] eqn:E.
    + apply (vr_memory _ _ _ m0 w); auto. apply A in E. congruence.
    + destruct (B x v E Hv) as (sd & Es & Ho). apply (vr_disk _ _ _ m0 sd v); auto.
  - rewrite Em in V. destruct (e_vars s) as [m0|] eqn:E'; [|contradiction]. destruct V as [A B].
    rewrite Es in D. destruct (e_db s) as [sd0|] eqn:E''; [|contradiction].
    destruct (vs_get m0 x) as [w|] eqn:E; [apply A in E; congruence|].
    apply (vr_disk _ _ _ m0 sd0 v); auto. destruct D as (-> & _). exact Ho.
  - rewrite Em in V. destruct (e_vars s) as [m0|] eqn:E'; [|contradiction]. destruct V as [A B].
    rewrite Es in D. destruct (e_db s) as [sd0|] eqn:E''; [contradiction|].
    destruct (vs_get m0 x) as [w|] eqn:E; [apply A in E; congruence|].
    apply (vr_unknown_memory _ _ _ m0); auto.
  - rewrite Em in V. destruct (e_vars s) as [m0|] eqn:E'; [|contradiction]. destruct V as [A B].
    rewrite Es in D. destruct (e_db s) as [sd0|] eqn:E''; [|contradiction].
    destruct (vs_get m0 x) as [w|] eqn:E; [apply A in E; congruence|].
    apply (vr_unknown _ _ _ m0 sd0); auto. destruct D as (-> & _). exact Ho.
  - rewrite Em in V. destruct (e_vars s) as [m0|] eqn:E'; [|contradiction]. destruct V as [A B].
    rewrite Es in D. destruct (e_db s) as [sd0|] eqn:E''; [|contradiction].
    destruct (vs_get m0 x) as [w|] eqn:E; [apply A in E; congruence|].
    apply (vr_fault _ _ _ m0 sd0); auto. destruct D as (_ & _ & c & ->). apply in_app_iff. right. exact Hf.
Qed.

Lemma exec_variable_sound x p s s' o : env_ok s -> exec_variable x p s = (s', o) ->
  grows s s' /\ var_result s x p (result_of o) /\ (forall v, o = Ok v -> canon v).
Proof.
  intros [O1 O2]. unfold exec_variable. destruct s as [ev ed]. cbn [e_vars e_db] in *.
  destruct ev as [m|].
  2:{ intros H. apply pair_equal_spec in H as [<- <-]. split; [apply grows_refl|]. split; [|discriminate].
      apply vr_no_store. reflexivity. }
  unfold vs_lookup. destruct (vs_get m x) as [v|] eqn:E.
  { intros H. apply pair_equal_spec in H as [<- <-]. split; [apply grows_refl|]. split.
    - apply (vr_memory _ _ _ m v); try reflexivity. exact E.
    - intros w Hw. injection Hw as <-. eapply O1; [reflexivity|exact E]. }
  destruct ed as [sd|].
  2:{ intros H. apply pair_equal_spec in H as [<- <-]. split; [apply grows_refl|]. split; [|discriminate].
      apply (vr_unknown_memory _ _ _ m); auto. }
  specialize (O2 sd eq_refl). unfold vs_reload, get_variable, sd_call.
  destruct (sd_faults sd) as [|[] fs] eqn:Ef.
  - destruct (tx_get_variable_ok (sd_db sd) x O2) as [(v & -> & Ho & Cv)|[-> Hn]];
      intros H; apply pair_equal_spec in H as [<- <-].
    + split; [|split; [apply (vr_disk _ _ _ m sd v); auto; reflexivity|intros w Hw; injection Hw as <-; exact Cv]].
      split; cbn [e_vars e_db].
      * split; intros y w; rewrite vs_get_insert.
        -- intros Hy. destruct (str_eqb y x) eqn:Ey; [apply str_eqb_spec in Ey; subst; congruence|exact Hy].
        -- intros Hy Hw. destruct (str_eqb y x) eqn:Ey; [|congruence]. apply str_eqb_spec in Ey. subst y.
           injection Hw as <-. exists sd. auto.
      * cbn [sd_db sd_pos sd_faults]. repeat split. exists []. rewrite Ef. reflexivity.
    + split; [|split; [apply (vr_unknown _ _ _ m sd); auto|discriminate]].
      split; cbn [e_vars e_db]; [split; [auto|congruence]|].
      cbn [sd_db sd_pos sd_faults]. repeat split. exists []. rewrite Ef. reflexivity.
  - intros H. apply pair_equal_spec in H as [<- <-].
    split; [|split; [apply (vr_fault _ _ _ m sd); auto; rewrite Ef; left; reflexivity|discriminate]].
    split; cbn [e_vars e_db]; [split; [auto|congruence]|].
    cbn [sd_db sd_pos sd_faults]. repeat split. exists [true]. rewrite Ef. reflexivity.
  - destruct (tx_get_variable_ok (sd_db sd) x O2) as [(v & -> & Ho & Cv)|[-> Hn]];
      intros H; apply pair_equal_spec in H as [<- <-].
    + split; [|split; [apply (vr_disk _ _ _ m sd v); auto; reflexivity|intros w Hw; injection Hw as <-; exact Cv]].
      split; cbn [e_vars e_db].
      * split; intros y w; rewrite vs_get_insert.
        -- intros Hy. destruct (str_eqb y x) eqn:Ey; [apply str_eqb_spec in Ey; subst; congruence|exact Hy].
        -- intros Hy Hw. destruct (str_eqb y x) eqn:Ey; [|congruence]. apply str_eqb_spec in Ey. subst y.
           injection Hw as <-. exists sd. auto.
      * cbn [sd_db sd_pos sd_faults]. repeat split. exists [false]. rewrite Ef. reflexivity.
    + split; [|split; [apply (vr_unknown _ _ _ m sd); auto|discriminate]].
      split; cbn [e_vars e_db]; [split; [auto|congruence]|].
      cbn [sd_db sd_pos sd_faults]. repeat split. exists [false]. rewrite Ef. reflexivity.
Qed.

(** ** Operators *)

Lemma ratio_rem_spec {F} x y : ~ y == 0 -> exists r, ratio_rem (E := F) x y = Ok r /\ canon r /\ remainder x y r.
Proof.
  intros Hy. unfold ratio_rem. pose proof (proj2 (num_nonzero y) Hy) as Hb. rewrite Hb. eexists. split; [reflexivity|].
  split; [apply canon_Qred|]. destruct x as [n d], y as [n' d']. cbn [Qnum Qden] in *.
  apply Z.eqb_neq in Hb.
  set (A := (n * Zpos d')%Z). set (B := (n' * Zpos d)%Z).
  assert (HB : B <> 0%Z) by (unfold B; nia).
  pose proof (Z.quot_rem A B HB) as HE. pose proof (Z.rem_bound_abs A B HB) as HR.
  pose proof (Z.rem_sign_nz A B HB) as HS.
  set (R := Z.rem A B) in *. set (q := Z.quot A B) in *.
  unfold remainder. split; [|split].
  - exists q. rewrite Qred_correct. unfold Qeq, Qplus, Qmult, inject_Z; simpl.
    rewrite !Pos2Z.inj_mul.
    transitivity (A * (Zpos d * Zpos d'))%Z; [unfold A; ring|]. rewrite HE. unfold B. ring.
  - rewrite Qred_correct. unfold Qlt, Qabs; simpl. rewrite !Pos2Z.inj_mul.
    assert (Z.abs B = Z.abs n' * Zpos d)%Z by (unfold B; rewrite Z.abs_mul; reflexivity).
    rewrite H in HR. apply (Z.mul_lt_mono_pos_r (Zpos d')) in HR; [|lia]. rewrite Z.mul_assoc. exact HR.
  - rewrite Qred_correct. destruct (Z.eq_dec R 0) as [->|HR0]; [left; reflexivity|right].
    specialize (HS HR0). unfold Qlt; simpl. rewrite !Z.mul_1_r.
    destruct (Z.lt_total A 0) as [HA|[HA|HA]].
    + right. rewrite (Z.sgn_neg A) in HS by exact HA. unfold A in HA. split; [nia|]. destruct R; simpl in *; lia.
    + exfalso. apply HR0. unfold R. rewrite HA. apply Z.rem_0_l. exact HB.
    + left. rewrite (Z.sgn_pos A) in HS by exact HA. unfold A in HA. split; [nia|]. destruct R; simpl in *; lia.
Qed.

Lemma fold_extreme f l : forall x,
  let g := match f with FMax => ratio_max | FMin => ratio_min end in
  In (fold_left g l x) (x :: l) /\
  forall v, In v (x :: l) -> match f with FMax => v <= fold_left g l x | FMin => fold_left g l x <= v end.
Proof.
  induction l as [|y l IH]; intros x; cbn zeta in *.
  - split; [left; reflexivity|]. intros v [<-|[]]. destruct f; apply Qle_refl.
  - cbn [fold_left]. destruct f.
    + destruct (IH (ratio_max x y)) as [I1 B1]. destruct (ratio_max_spec x y) as (C & L1 & L2). split.
      * destruct I1 as [I1|I1]; [|right; right; exact I1]. rewrite <- I1. destruct C as [->| ->]; [left|right; left]; reflexivity.
      * pose proof (B1 _ (or_introl eq_refl)) as B0. intros v [<-|[<-|Hv]]; [lra|lra|]. apply B1. right. exact Hv.
    + destruct (IH (ratio_min x y)) as [I1 B1]. destruct (ratio_min_spec x y) as (C & L1 & L2). split.
      * destruct I1 as [I1|I1]; [|right; right; exact I1]. rewrite <- I1. destruct C as [->| ->]; [left|right; left]; reflexivity.
      * pose proof (B1 _ (or_introl eq_refl)) as B0. intros v [<-|[<-|Hv]]; [lra|lra|]. apply B1. right. exact Hv.
Qed.

Lemma ok_inj {F A} (x y : A) : @Ok F A x = Ok y -> x = y.
Proof. intros H. injection H. auto. Qed.

Section Sound.
  Context (pr : profile) (a : args) (power : position -> Q -> Q -> result -> Prop).
  Hypothesis Hpow : forall p x y, canon x -> canon y ->
    power p x y (result_of (exec_power pr a p x y)) /\ (forall v, exec_power pr a p x y = Ok v -> canon v).

  Lemma exec_unary_sound op p x : canon x ->
    unary power p x op (result_of (exec_unary pr a op p x)) /\ (forall v, exec_unary pr a op p x = Ok v -> canon v).
  Proof.
    intros Cx. destruct op; cbn [exec_unary].
    - destruct (Hpow p x (1 # 2) Cx eq_refl) as [P C]. split; [constructor; exact P|exact C].
    - split; [constructor; reflexivity|]. intros v H; injection H as <-. apply canon_opp, Cx.
    - split; [constructor; reflexivity|]. intros v H; injection H as <-. apply canon_abs, Cx.
  Qed.
  Lemma exec_binary_sound op p x y : canon x -> canon y ->
    binary power p x y op (result_of (exec_binary pr a op p x y)) /\ (forall v, exec_binary pr a op p x y = Ok v -> canon v).
  Proof.
    intros Cx Cy. destruct op; cbn [exec_binary].
    - split; [constructor; apply Qred_correct|]. intros v H; apply ok_inj in H as <-; apply canon_Qred.
    - split; [constructor; apply Qred_correct|]. intros v H; apply ok_inj in H as <-; apply canon_Qred.
    - split; [constructor; apply Qred_correct|]. intros v H; apply ok_inj in H as <-; apply canon_Qred.
    - destruct (Z.eqb (Qnum y) 0) eqn:E.
      + apply num_zero in E. split; [|discriminate]. apply b_divide_zero. exact E.
      + apply num_nonzero in E. rewrite ratio_div_ok by exact E. split.
        * apply b_divide; [exact E|]. rewrite Qred_correct. field. exact E.
        * intros v H; apply ok_inj in H as <-; apply canon_Qred.
    - destruct (Z.eqb (Qnum y) 0) eqn:E.
      + unfold ratio_rem. rewrite E. split; [|discriminate]. apply num_zero in E. apply b_modulus_zero. exact E.
      + apply num_nonzero in E. destruct (ratio_rem_spec (F := failure) x y E) as (r & -> & Cr & Hr).
        split; [apply b_modulus; assumption|]. intros v H; injection H as <-. exact Cr.
    - destruct (Hpow p x y Cx Cy) as [P C]. split; [constructor; exact P|exact C].
  Qed.
  Lemma exec_function_sound f p xs : (forall v, In v xs -> canon v) ->
    (xs <> [] -> exists v, exec_function f p xs = Ok v /\ canon v /\ extreme f xs v) /\
    (xs = [] -> exec_function f p xs = Err (fail_math (FunctionNeedsArguments f) p)).
  Proof.
    intros C. split.
    - destruct xs as [|x xs]; [contradiction|]. intros _. cbn [exec_function].
      destruct (fold_extreme f xs x) as [I B]. cbn zeta in I, B. eexists. split; [reflexivity|].
      split; [apply C; exact I|]. split; [eexists; split; [exact I|reflexivity]|exact B].
    - intros ->. reflexivity.
  Qed.

  Context (s0 : env) (Hok : env_ok s0).
  Let means := meaning (var_result s0) power.

  Definition sound_at (n : node) : Prop := forall s, grows s0 s -> forall s' o, exec pr a n s = (s', o) ->
    grows s0 s' /\ means n (result_of o) /\ (forall v, o = Ok v -> canon v).

  Definition list_result (ns : list node) (o : outcome failure (list Q)) : Prop :=
    match o with
    | Ok qs => meanings (var_result s0) power ns qs /\ (forall v, In v qs -> canon v)
    | Err e => first_stop (var_result s0) power ns (Fails e)
    | Panic _ => first_stop (var_result s0) power ns Crashes
    end.

  Lemma exec_list_sound ns : (forall n, In n ns -> sound_at n) -> forall s, grows s0 s -> forall s' o,
    exec_list pr a ns s = (s', o) -> grows s0 s' /\ list_result ns o.
  Proof.
    induction ns as [|n ns IH]; intros Hn s G s' o.
    - cbn [exec_list]. intros H. apply pair_equal_spec in H as [<- <-]. split; [exact G|]. split; [constructor|]. intros v [].
    - rewrite exec_list_cons. destruct (exec pr a n s) as [s1 o1] eqn:E1.
      destruct (Hn n (or_introl eq_refl) s G s1 o1 E1) as (G1 & M1 & C1).
      destruct o1 as [v|e|q]; cbn [then_do].
      + destruct (exec_list pr a ns s1) as [s2 o2] eqn:E2.
        destruct (IH (fun m Hm => Hn m (or_intror Hm)) s1 G1 s2 o2 E2) as (G2 & R2).
        destruct o2 as [vs|e|q]; cbn [then_do]; intros H; apply pair_equal_spec in H as [<- <-];
          (split; [exact G2|]); cbn [list_result] in *.
        * destruct R2 as [R2 C2]. split; [constructor; assumption|]. intros w [<-|Hw]; [apply C1; reflexivity|auto].
        * eapply fs_later; [exact M1|exact R2].
        * eapply fs_later; [exact M1|exact R2].
      + intros H. apply pair_equal_spec in H as [<- <-]. split; [exact G1|]. apply fs_here; [exact M1|exact I].
      + intros H. apply pair_equal_spec in H as [<- <-]. split; [exact G1|]. apply fs_here; [exact M1|exact I].
  Qed.

  Lemma exec_sound n : literals_ok n -> sound_at n.
  Proof.
    induction 1 as [v p C|x p|o p n _ IH|o p l r _ IHl _ IHr|f p ns w _ IH|p q n _ IH]; intros s G s' out.
    - cbn [exec]. intros H. apply pair_equal_spec in H as [<- <-]. split; [exact G|]. split; [constructor; reflexivity|].
      intros w H; injection H as <-. exact C.
    - cbn [exec]. intros H. destruct (exec_variable_sound x p s s' out (grows_ok _ _ Hok G) H) as (G1 & R & C).
      split; [eapply grows_trans; eauto|]. split; [constructor; eapply grows_result; eauto|exact C].
    - cbn [exec]. destruct (exec pr a n s) as [s1 o1] eqn:E. destruct (IH s G s1 o1 E) as (G1 & M1 & C1).
      destruct o1 as [v|e|q]; cbn [then_do]; intros H; apply pair_equal_spec in H as [<- <-]; (split; [exact G1|]).
      + destruct (exec_unary_sound o p v (C1 v eq_refl)) as [U C]. split; [eapply m_unary; eauto|exact C].
      + split; [apply m_unary_stop; [exact M1|exact I]|discriminate].
      + split; [apply m_unary_stop; [exact M1|exact I]|discriminate].
    - cbn [exec]. destruct (exec pr a l s) as [s1 o1] eqn:E. destruct (IHl s G s1 o1 E) as (G1 & M1 & C1).
      destruct o1 as [v|e|q]; cbn [then_do].
      + destruct (exec pr a r s1) as [s2 o2] eqn:E2. destruct (IHr s1 G1 s2 o2 E2) as (G2 & M2 & C2).
        destruct o2 as [v2|e|q]; cbn [then_do]; intros H; apply pair_equal_spec in H as [<- <-]; (split; [exact G2|]).
        * destruct (exec_binary_sound o p v v2 (C1 v eq_refl) (C2 v2 eq_refl)) as [U C]. split; [eapply m_binary; eauto|exact C].
        * split; [eapply m_binary_right; [exact M1|exact M2|exact I]|discriminate].
        * split; [eapply m_binary_right; [exact M1|exact M2|exact I]|discriminate].
      + intros H; apply pair_equal_spec in H as [<- <-]; (split; [exact G1|]). split; [apply m_binary_left; [exact M1|exact I]|discriminate].
      + intros H; apply pair_equal_spec in H as [<- <-]; (split; [exact G1|]). split; [apply m_binary_left; [exact M1|exact I]|discriminate].
    - rewrite exec_fun. destruct (exec_list pr a ns s) as [s1 o1] eqn:E.
      destruct (exec_list_sound ns IH s G s1 o1 E) as (G1 & R1).
      destruct o1 as [vs|e|q]; cbn [then_do list_result] in *; intros H; apply pair_equal_spec in H as [<- <-]; (split; [exact G1|]).
      + destruct R1 as [R1 C1]. destruct (exec_function_sound f p vs C1) as [F1 F2].
        destruct vs as [|v vs].
        * rewrite (F2 eq_refl). inversion R1; subst. split; [constructor|discriminate].
        * destruct F1 as (v' & -> & C' & X); [discriminate|]. split; [eapply m_function; eauto|].
          intros w' H; injection H as <-. exact C'.
      + split; [apply m_function_stop; exact R1|discriminate].
      + split; [apply m_function_stop; exact R1|discriminate].
    - cbn [exec]. intros H. destruct (IH s G s' out H) as (G1 & M1 & C1). split; [exact G1|]. split; [constructor; exact M1|exact C1].
  Qed.
End Sound.
