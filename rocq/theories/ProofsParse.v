(** ProofsParse.v -- the parser of src/syntax_tree.rs accepts exactly the grammar of
    SpecGrammar.v. *)
From Verif Require Import Base Position TokenTypes Errors SyntaxTree SpecGrammar.
From Coq Require Import String.
Local Open Scope list_scope.

(** * Item level: the passes *)

(** [gib b k its n]: the items [its], whose operands are taken to have level [b], form an
    expression of level at most [k] with tree [n]. *)
Inductive gib (b : nat) : nat -> list ooo -> node -> Prop :=
| gib_leaf : forall n, gib b b [IOperand n] n
| gib_up : forall k its n, gib b k its n -> gib b (S k) its n
| gib_bin : forall k o p i1 i2 x y, binop_level o = S k -> b <= k ->
    gib b (S k) i1 x -> gib b k i2 y ->
    gib b (S k) (i1 ++ IOperator (mkPositioned o p) :: i2) (NBin o p x y).

(** Items before the negation pass. *)
Inductive gi : nat -> list ooo -> node -> Prop :=
| gi_leaf : forall n, gi 0 [IOperand n] n
| gi_neg : forall p its n, gi 1 its n ->
    gi 1 (IOperator (mkPositioned Subtract p) :: its) (NUn Negate p n)
| gi_up : forall k its n, gi k its n -> gi (S k) its n
| gi_bin : forall k o p i1 i2 x y, binop_level o = S k ->
    gi (S k) i1 x -> gi k i2 y ->
    gi (S k) (i1 ++ IOperator (mkPositioned o p) :: i2) (NBin o p x y).

Definition slice_of (l : nat) (slice : list binop) : Prop :=
  forall o, existsb (binop_eqb o) slice = Nat.eqb (binop_level o) l.

(** ** bin_pass without fuel *)

Lemma bin_pass_fuel slice : forall f1 f2 ooos temp,
  List.length ooos <= f1 -> List.length ooos <= f2 -> bin_pass f1 slice ooos temp = bin_pass f2 slice ooos temp.
Proof.
  induction f1 as [|f1 IH]; intros f2 ooos temp H1 H2.
  - destruct ooos; [|simpl in H1; lia]. destruct f2; simpl; rewrite ?app_nil_r; reflexivity.
  - destruct f2 as [|f2].
    + destruct ooos; [|simpl in H2; lia]. simpl. rewrite app_nil_r. reflexivity.
    + destruct ooos as [|[a|q] rest]; [reflexivity| |].
      * destruct rest as [|[b|q] rest]; cbn [bin_pass]; try (apply IH; simpl in *; lia).
        destruct rest as [|[b|q'] rest]; try (apply IH; simpl in *; lia).
        destruct (in_operator_slice (IOperator q) slice); apply IH; simpl in *; lia.
      * cbn [bin_pass]. apply IH; simpl in *; lia.
Qed.
Definition bp slice ooos temp := bin_pass (List.length ooos) slice ooos temp.

Lemma bp_nil slice temp : bp slice [] temp = temp.
Proof. unfold bp; simpl. apply app_nil_r. Qed.
Lemma bin_pass_step3 f slice a q b rest temp :
  bin_pass (S f) slice (IOperand a :: IOperator q :: IOperand b :: rest) temp =
  if in_operator_slice (IOperator q) slice
  then bin_pass f slice (IOperand (NBin (pd_value q) (pd_pos q) a b) :: rest) temp
  else bin_pass f slice (IOperator q :: IOperand b :: rest) (temp ++ [IOperand a]).
Proof. reflexivity. Qed.
Lemma bin_pass_step_op f slice q rest temp :
  bin_pass (S f) slice (IOperator q :: rest) temp = bin_pass f slice rest (temp ++ [IOperator q]).
Proof. reflexivity. Qed.
Lemma bp_eq f slice ooos temp : List.length ooos <= f -> bin_pass f slice ooos temp = bp slice ooos temp.
Proof. intros H. apply bin_pass_fuel; [exact H|apply le_n]. Qed.
Lemma bp_combine slice a q b rest temp : in_operator_slice (IOperator q) slice = true ->
  bp slice (IOperand a :: IOperator q :: IOperand b :: rest) temp =
  bp slice (IOperand (NBin (pd_value q) (pd_pos q) a b) :: rest) temp.
Proof.
  intros H. unfold bp at 1. cbn [List.length]. rewrite bin_pass_step3, H. apply bp_eq; simpl; lia.
Qed.
Lemma bp_operator slice q rest temp : bp slice (IOperator q :: rest) temp = bp slice rest (temp ++ [IOperator q]).
Proof. unfold bp at 1. cbn [List.length]. rewrite bin_pass_step_op. apply bp_eq; simpl; lia. Qed.
Lemma bp_shift slice a rest temp :
  (forall q b r, rest = IOperator q :: IOperand b :: r -> in_operator_slice (IOperator q) slice = false) ->
  bp slice (IOperand a :: rest) temp = bp slice rest (temp ++ [IOperand a]).
Proof.
  intros H. unfold bp at 1.
  destruct rest as [|[b|q] rest]; [reflexivity| |].
  { transitivity (bin_pass (S (List.length rest)) slice (IOperand b :: rest) (temp ++ [IOperand a])); [reflexivity|].
    apply bp_eq; simpl; lia. }
  destruct rest as [|[b|q'] rest]; [reflexivity| |].
  2:{ transitivity (bin_pass (S (S (List.length rest))) slice (IOperator q :: IOperator q' :: rest) (temp ++ [IOperand a])); [reflexivity|].
    apply bp_eq; simpl; lia. }
  cbn [List.length]. rewrite bin_pass_step3, (H q b rest eq_refl). apply bp_eq; simpl; lia.
Qed.

Lemma in_slice_level l slice o p : slice_of l slice ->
  in_operator_slice (IOperator (mkPositioned o p)) slice = Nat.eqb (binop_level o) l.
Proof. intros H. simpl. apply H. Qed.

Lemma gib_level b k its n : gib b k its n -> b <= k.
Proof. induction 1; lia. Qed.
Lemma gib_base b its n : gib b b its n -> its = [IOperand n].
Proof.
  intros H. remember b as k eqn:E in H at 2. destruct H as [n|k its n H|k o p i1 i2 x y Hl Hk H1 H2].
  - reflexivity.
  - subst. apply gib_level in H. lia.
  - subst. lia.
Qed.

(** Lemma A: one level above the base, items collapse greedily. *)
Lemma pass_collapse b slice its n : slice_of (S b) slice -> gib b (S b) its n ->
  forall rest temp, bp slice (its ++ rest) temp = bp slice (IOperand n :: rest) temp.
Proof.
  intros Hs H. remember (S b) as k eqn:E. revert E.
  induction H as [n|k its n H IH|k o p i1 i2 x y Hl Hk H1 IH1 H2 IH2]; intros E rest temp.
  - lia.
  - injection E as ->. apply gib_base in H. subst. reflexivity.
  - injection E as ->. apply gib_base in H2. subst i2.
    rewrite <- app_assoc. rewrite (IH1 Hs eq_refl). cbn [app].
    rewrite bp_combine; [reflexivity|]. rewrite (in_slice_level (S b)) by exact Hs.
    rewrite Hl. apply Nat.eqb_refl.
Qed.

(** Lemma B *)
Definition no_slice_head (slice : list binop) (rest : list ooo) : Prop :=
  rest = [] \/ exists q r, rest = IOperator q :: r /\ in_operator_slice (IOperator q) slice = false.
Lemma pass_level b slice k its n : slice_of (S b) slice -> gib b k its n -> S b <= k ->
  exists its', gib (S b) k its' n /\
    forall rest temp, no_slice_head slice rest -> bp slice (its ++ rest) temp = bp slice rest (temp ++ its').
Proof.
  intros Hs H. induction H as [n|k its n H IH|k o p i1 i2 x y Hl Hk H1 IH1 H2 IH2]; intros Hbk.
  - lia.
  - destruct (Nat.eq_dec k b) as [->|Hne].
    + exists [IOperand n]. split; [constructor|]. intros rest temp Hr.
      rewrite (pass_collapse b slice its n Hs (gib_up _ _ _ _ H)).
      apply bp_shift. intros q c r ->. destruct Hr as [|(q' & r' & E & Hq)]; [discriminate|].
      injection E as <- _. exact Hq.
    + destruct IH as (its' & H' & Hp); [apply gib_level in H; lia|].
      exists its'. split; [apply gib_up; exact H'|exact Hp].
  - destruct (Nat.eq_dec k b) as [->|Hne].
    + exists [IOperand (NBin o p x y)]. split; [constructor|]. intros rest temp Hr.
      rewrite (pass_collapse b slice _ (NBin o p x y) Hs); [|apply gib_bin; assumption].
      apply bp_shift. intros q c r ->. destruct Hr as [|(q' & r' & E & Hq)]; [discriminate|].
      injection E as <- _. exact Hq.
    + destruct IH1 as (j1 & G1 & P1); [lia|]. destruct IH2 as (j2 & G2 & P2); [lia|].
      exists (j1 ++ IOperator (mkPositioned o p) :: j2). split; [apply gib_bin; auto; lia|].
      intros rest temp Hr. rewrite <- app_assoc. cbn [app]. rewrite P1.
      * rewrite bp_operator, P2 by exact Hr. rewrite <- !app_assoc. reflexivity.
      * right. eexists _, _. split; [reflexivity|]. rewrite (in_slice_level (S b)) by exact Hs.
        apply Nat.eqb_neq. lia.
Qed.
Lemma pass_complete b slice k its n : slice_of (S b) slice -> gib b k its n -> S b <= k ->
  gib (S b) k (bp slice its []) n.
Proof.
  intros Hs H Hk. destruct (pass_level b slice k its n Hs H Hk) as (its' & H' & Hp).
  specialize (Hp [] [] (or_introl eq_refl)). rewrite app_nil_r, bp_nil in Hp. simpl in Hp. rewrite Hp. exact H'.
Qed.

(** ** neg_pass without fuel *)

Lemma neg_pass_fuel : forall f1 f2 back temp,
  List.length back <= f1 -> List.length back <= f2 -> neg_pass f1 back temp = neg_pass f2 back temp.
Proof.
  induction f1 as [|f1 IH]; intros f2 back temp H1 H2.
  - destruct back; [|simpl in H1; lia]. destruct f2; reflexivity.
  - destruct f2 as [|f2].
    + destruct back; [|simpl in H2; lia]. reflexivity.
    + destruct back as [|[a|q] rest]; [reflexivity| |].
      * destruct rest as [|[b|q] rest]; cbn [neg_pass]; try (apply IH; simpl in *; lia).
        destruct (_ && _); apply IH; simpl in *; lia.
      * cbn [neg_pass]. apply IH; simpl in *; lia.
Qed.
Definition np front temp := neg_pass (List.length front) (rev front) temp.
Lemma np_eq f front temp : List.length front <= f -> neg_pass f (rev front) temp = np front temp.
Proof. intros H. unfold np. apply neg_pass_fuel; rewrite rev_length; lia. Qed.

Definition ends_operator (front : list ooo) : Prop :=
  front = [] \/ exists f q, front = f ++ [IOperator q].
Definition ends_operand (its : list ooo) : Prop := exists f n, its = f ++ [IOperand n].

Lemma np_nil temp : np [] temp = temp.
Proof. reflexivity. Qed.
Lemma neg_pass_step_op f q rest temp :
  neg_pass (S f) (IOperator q :: rest) temp = neg_pass f rest (IOperator q :: temp).
Proof. reflexivity. Qed.
Lemma neg_pass_step2 f n q rest temp :
  neg_pass (S f) (IOperand n :: IOperator q :: rest) temp =
  if binop_eqb (pd_value q) Subtract && match rest with [] => true | x :: _ => is_operator x end
  then neg_pass f (IOperand (NUn Negate (pd_pos q) n) :: rest) temp
  else neg_pass f (IOperator q :: rest) (IOperand n :: temp).
Proof. reflexivity. Qed.
Lemma np_operator f q temp : np (f ++ [IOperator q]) temp = np f (IOperator q :: temp).
Proof.
  unfold np at 1. rewrite app_length, Nat.add_comm, rev_app_distr. cbn [List.length app rev Nat.add].
  rewrite neg_pass_step_op. apply np_eq. lia.
Qed.
Lemma np_negate f p n temp : ends_operator f ->
  np (f ++ [IOperator (mkPositioned Subtract p); IOperand n]) temp = np (f ++ [IOperand (NUn Negate p n)]) temp.
Proof.
  intros Hf. unfold np at 1.
  replace (List.length (f ++ [IOperator (mkPositioned Subtract p); IOperand n])) with (S (S (List.length f)))
    by (rewrite app_length; simpl; lia).
  rewrite rev_app_distr. cbn [rev app]. rewrite neg_pass_step2.
  assert (E : match rev f with [] => true | x :: _ => is_operator x end = true).
  { destruct Hf as [->|(g & q & ->)]; [reflexivity|]. rewrite rev_app_distr. reflexivity. }
  rewrite E. cbn [pd_value binop_eqb andb pd_pos].
  change (IOperand (NUn Negate p n) :: rev f) with (rev [IOperand (NUn Negate p n)] ++ rev f).
  rewrite <- (rev_app_distr f [IOperand (NUn Negate p n)]). apply np_eq. rewrite app_length; simpl; lia.
Qed.
(** no negation: the operand is moved *)
Lemma np_operand f n temp :
  (forall g p, f = g ++ [IOperator (mkPositioned Subtract p)] -> ends_operand g) ->
  np (f ++ [IOperand n]) temp = np f (IOperand n :: temp).
Proof.
  intros Hf. unfold np at 1. rewrite app_length, Nat.add_comm, rev_app_distr.
  cbn [List.length app rev Nat.add].
  destruct (rev f) as [|[m|q] r] eqn:E.
  - transitivity (neg_pass (List.length f) (rev f) (IOperand n :: temp)); [rewrite E; reflexivity|]. apply np_eq; lia.
  - transitivity (neg_pass (List.length f) (rev f) (IOperand n :: temp)); [rewrite E; reflexivity|]. apply np_eq; lia.
  - rewrite neg_pass_step2.
    destruct (binop_eqb (pd_value q) Subtract && match r with [] => true | x :: _ => is_operator x end) eqn:C.
    + exfalso. apply andb_true_iff in C as [C1 C2].
      assert (Ef : f = rev r ++ [IOperator q]).
      { rewrite <- (rev_involutive f), E. reflexivity. }
      destruct q as [o p]. destruct o; try discriminate.
      destruct (Hf _ _ Ef) as (g & m & Eg). apply (f_equal (@rev ooo)) in Eg.
      rewrite rev_involutive, rev_app_distr in Eg. subst r. discriminate.
    + rewrite <- E. apply np_eq; lia.
Qed.

Lemma gi_ends k its n : gi k its n -> ends_operand its.
Proof.
  induction 1 as [n|p its n H (f & m & ->)|k its n H IH|k o p i1 i2 x y Hl H1 IH1 H2 (f & m & ->)].
  - exists [], n. reflexivity.
  - exists (IOperator (mkPositioned Subtract p) :: f), m. reflexivity.
  - exact IH.
  - exists (i1 ++ IOperator (mkPositioned o p) :: f), m. rewrite <- app_assoc. reflexivity.
Qed.

Lemma binop_level_ge o : 2 <= binop_level o <= 5.
Proof. destruct o; simpl; lia. Qed.

Lemma neg_collapse k its n : gi k its n -> k <= 1 ->
  forall front temp, ends_operator front -> np (front ++ its) temp = np (front ++ [IOperand n]) temp.
Proof.
  induction 1 as [n|p its n H IH|k its n H IH|k o p i1 i2 x y Hl H1 IH1 H2 IH2]; intros Hk front temp Hf.
  - reflexivity.
  - change (front ++ IOperator (mkPositioned Subtract p) :: its)
      with (front ++ ([IOperator (mkPositioned Subtract p)] ++ its)).
    rewrite app_assoc, IH; [|lia|right; eauto]. rewrite <- app_assoc. apply np_negate. exact Hf.
  - apply IH; [lia|exact Hf].
  - pose proof (binop_level_ge o). lia.
Qed.

(** [front] is empty or ends with an operand and an operator. *)
Definition ok_front (front : list ooo) : Prop :=
  front = [] \/ exists g q, front = g ++ [IOperator q] /\ ends_operand g.
Lemma ok_front_ends f : ok_front f -> ends_operator f.
Proof. intros [->|(g & q & -> & _)]; [left; reflexivity|right; eauto]. Qed.

Lemma neg_level k its n : gi k its n -> 1 <= k ->
  exists its', gib 1 k its' n /\
    forall front temp, ok_front front -> np (front ++ its) temp = np front (its' ++ temp).
Proof.
  assert (Base : forall its n, gi 1 its n -> forall front temp, ok_front front ->
            np (front ++ its) temp = np front ([IOperand n] ++ temp)).
  { intros i0 m0 H0 front temp Hf. rewrite (neg_collapse 1 i0 m0 H0 (le_n _)) by (apply ok_front_ends; exact Hf).
    apply np_operand. intros g p ->. destruct Hf as [Hf|(g' & q & Hf & Hg)].
    - destruct g; discriminate.
    - apply app_inj_tail in Hf as [<- _]. exact Hg. }
  induction 1 as [n|p its n H IH|k its n H IH|k o p i1 i2 x y Hl H1 IH1 H2 IH2]; intros Hk.
  - lia.
  - exists [IOperand (NUn Negate p n)]. split; [constructor|]. intros front temp Hf.
    apply Base; [|exact Hf]. apply gi_neg; exact H.
  - destruct k as [|k].
    + exists [IOperand n]. split; [constructor|]. intros front temp Hf. apply Base; [apply gi_up; exact H|exact Hf].
    + destruct IH as (its' & G & P); [lia|]. exists its'. split; [apply gib_up; exact G|exact P].
  - pose proof (binop_level_ge o).
    destruct IH1 as (j1 & G1 & P1); [lia|]. destruct IH2 as (j2 & G2 & P2); [lia|].
    exists (j1 ++ IOperator (mkPositioned o p) :: j2). split; [apply gib_bin; auto; lia|].
    intros front temp Hf.
    replace (front ++ i1 ++ IOperator (mkPositioned o p) :: i2)
      with ((front ++ i1 ++ [IOperator (mkPositioned o p)]) ++ i2) by (rewrite <- !app_assoc; reflexivity).
    rewrite P2.
    + rewrite (app_assoc front i1), np_operator, P1 by exact Hf. rewrite <- app_assoc. reflexivity.
    + right. exists (front ++ i1), (mkPositioned o p). split; [rewrite <- app_assoc; reflexivity|].
      destruct (gi_ends _ _ _ H1) as (f & m & ->). exists (front ++ f), m. rewrite app_assoc. reflexivity.
Qed.

Lemma slices :
  slice_of 2 [Exponent] /\ slice_of 3 [Modulus] /\ slice_of 4 [Multiply; Divide] /\ slice_of 5 [Add; Subtract].
Proof. repeat split; intros []; reflexivity. Qed.

Lemma apply_passes_eq ooos :
  apply_passes ooos = bp [Add; Subtract] (bp [Multiply; Divide] (bp [Modulus] (bp [Exponent] (np ooos []) []) []) []) [].
Proof.
  unfold apply_passes, ordered_binary_operators, np, bp. cbn [fold_left]. reflexivity.
Qed.

Lemma passes_complete its n : gi 5 its n -> apply_passes its = [IOperand n].
Proof.
  intros H. rewrite apply_passes_eq. destruct slices as (S2 & S3 & S4 & S5).
  destruct (neg_level 5 its n H ltac:(lia)) as (its' & G & P).
  specialize (P [] [] (or_introl eq_refl)). cbn [app] in P. rewrite np_nil, app_nil_r in P. rewrite P.
  apply (pass_complete 1 _ _ _ _ S2) in G; [|lia].
  apply (pass_complete 2 _ _ _ _ S3) in G; [|lia].
  apply (pass_complete 3 _ _ _ _ S4) in G; [|lia].
  apply (pass_complete 4 _ _ _ _ S5) in G; [|lia].
  apply gib_base in G. exact G.
Qed.

(** * Soundness of the passes *)

(** [seg k its ts]: the items [its] cover the tokens [ts] in order, operands at level [k]. *)
Inductive seg (k : nat) : list ooo -> list ptoken -> Prop :=
| seg_nil : seg k [] []
| seg_operand : forall n ts its us, derives k ts n -> seg k its us -> seg k (IOperand n :: its) (ts ++ us)
| seg_operator : forall q its us, seg k its us ->
    seg k (IOperator q :: its) (mkPositioned (TBin (pd_value q)) (pd_pos q) :: us).

Lemma seg_app k a b ts us : seg k a ts -> seg k b us -> seg k (a ++ b) (ts ++ us).
Proof.
  induction 1 as [|n t its u Hd H IH|q its u H IH]; intros Hb; cbn [app].
  - exact Hb.
  - rewrite <- app_assoc. constructor; auto.
  - constructor; auto.
Qed.
Lemma seg_app_inv k a b ts : seg k (a ++ b) ts -> exists t1 t2, ts = t1 ++ t2 /\ seg k a t1 /\ seg k b t2.
Proof.
  revert ts. induction a as [|x a IH]; intros ts H; cbn [app] in H.
  - exists [], ts. repeat split; [constructor|exact H].
  - inversion H as [|n t its u Hd H'|q its u H']; subst.
    + destruct (IH u H') as (t1 & t2 & -> & Ha & Hb). exists (t ++ t1), t2. rewrite app_assoc.
      repeat split; [constructor; assumption|exact Hb].
    + destruct (IH u H') as (t1 & t2 & -> & Ha & Hb). eexists (_ :: t1), t2.
      repeat split; [constructor; assumption|exact Hb].
Qed.
Lemma seg_weaken k its ts : seg k its ts -> seg (S k) its ts.
Proof. induction 1; constructor; auto. apply d_weaken; assumption. Qed.
Lemma seg_one k n ts : seg k [IOperand n] ts -> derives k ts n.
Proof.
  intros H. inversion H as [|m t its u Hd H'|]; subst. inversion H'; subst. rewrite app_nil_r. exact Hd.
Qed.

Lemma bin_pass_sound k slice f : slice_of (S k) slice -> forall ooos temp t1 t2,
  seg (S k) temp t1 ->
  ((exists a rest ta tr, ooos = IOperand a :: rest /\ t2 = ta ++ tr /\ derives (S k) ta a /\ seg k rest tr) \/ seg k ooos t2) ->
  seg (S k) (bin_pass f slice ooos temp) (t1 ++ t2).
Proof.
  intros Hs. induction f as [|f IH]; intros ooos temp t1 t2 Ht Ho.
  - simpl. apply seg_app; [exact Ht|]. destruct Ho as [(a & rest & ta & tr & -> & -> & Ha & Hr)|Ho].
    + constructor; [exact Ha|]. apply seg_weaken; exact Hr.
    + apply seg_weaken; exact Ho.
  - (* normalise: either nil, operand with level S k, or operator *)
    assert (Hcase : (ooos = [] /\ t2 = []) \/
       (exists a rest ta tr, ooos = IOperand a :: rest /\ t2 = ta ++ tr /\ derives (S k) ta a /\ seg k rest tr) \/
       (exists q rest tr, ooos = IOperator q :: rest /\ t2 = mkPositioned (TBin (pd_value q)) (pd_pos q) :: tr /\ seg k rest tr)).
    { destruct Ho as [Ho|Ho]; [right; left; exact Ho|].
      inversion Ho as [|n t its u Hd H'|q its u H']; subst.
      - left; auto.
      - right; left. exists n, its, t, u. repeat split; auto. apply d_weaken; exact Hd.
      - right; right. exists q, its, u. auto. }
    clear Ho. destruct Hcase as [(-> & ->)|[(a & rest & ta & tr & -> & -> & Ha & Hr)|(q & rest & tr & -> & -> & Hr)]].
    + simpl. rewrite app_nil_r. exact Ht.
    + assert (Hmove : seg (S k) (bin_pass f slice rest (temp ++ [IOperand a])) (t1 ++ ta ++ tr)).
      { rewrite app_assoc. apply IH; [|right; exact Hr]. apply seg_app; [exact Ht|].
        rewrite <- (app_nil_r ta). constructor; [exact Ha|constructor]. }
      destruct rest as [|[b|q] rest]; cbn [bin_pass]; try exact Hmove.
      destruct rest as [|[b|q'] rest]; try exact Hmove.
      destruct (in_operator_slice (IOperator q) slice) eqn:E; [|exact Hmove].
      inversion Hr as [| |q0 its u H']; subst. inversion H' as [|n t its' u' Hd H''|]; subst.
      apply IH; [exact Ht|]. left. destruct q as [o p]. cbn [pd_value pd_pos] in *.
      exists (NBin o p a b), rest, (ta ++ tk (TBin o) p :: t), u'.
      split; [reflexivity|]. split; [rewrite <- app_assoc; reflexivity|]. split; [|exact H''].
      rewrite (in_slice_level (S k)) in E by exact Hs. apply Nat.eqb_eq in E.
      apply d_binary; assumption.
    + cbn [bin_pass]. replace (t1 ++ tk (TBin (pd_value q)) (pd_pos q) :: tr)
        with ((t1 ++ [tk (TBin (pd_value q)) (pd_pos q)]) ++ tr) by (rewrite <- app_assoc; reflexivity).
      apply IH; [|right; exact Hr]. apply seg_app; [exact Ht|]. constructor; constructor.
Qed.

Lemma neg_pass_sound f : forall back temp t1 t2,
  seg 1 (rev back) t1 -> seg 1 temp t2 ->
  seg 1 (neg_pass f back temp) (t1 ++ t2).
Proof.
  induction f as [|f IH]; intros back temp t1 t2 Hb Ht.
  - simpl. apply seg_app; assumption.
  - destruct back as [|x back]; [simpl in *; inversion Hb; subst; exact Ht|].
    assert (Hmove : seg 1 (neg_pass f back (x :: temp)) (t1 ++ t2)).
    { simpl in Hb. apply seg_app_inv in Hb as (u1 & u2 & -> & H1 & H2). rewrite <- app_assoc.
      apply IH; [exact H1|]. apply (seg_app 1 [x] temp); assumption. }
    destruct x as [n|q]; [|exact Hmove].
    destruct back as [|[m|q] rest]; cbn [neg_pass]; try exact Hmove.
    destruct (_ && _) eqn:E; [|exact Hmove].
    apply andb_true_iff in E as [E _]. destruct q as [o p]. destruct o; try discriminate.
    apply IH; [|exact Ht]. simpl in Hb |- *. rewrite <- app_assoc in Hb.
    apply seg_app_inv in Hb as (u1 & u2 & -> & H1 & H2). apply seg_app; [exact H1|].
    simpl in H2. inversion H2 as [| |q0 its u H']; subst. apply seg_one in H'.
    cbn [pd_value pd_pos]. rewrite <- (app_nil_r (_ :: u)). constructor; [|constructor].
    apply d_negate; exact H'.
Qed.

Lemma passes_sound its ts : seg 0 its ts -> seg 5 (apply_passes its) ts.
Proof.
  intros H. rewrite apply_passes_eq. destruct slices as (S2 & S3 & S4 & S5).
  apply seg_weaken in H.
  assert (H1 : seg 1 (np its []) ts).
  { unfold np. rewrite <- (app_nil_r ts). apply neg_pass_sound; [rewrite rev_involutive; exact H|constructor]. }
  pose proof (bin_pass_sound 1 _ (List.length (np its [])) S2 _ [] [] ts (seg_nil _) (or_intror H1)) as H2.
  pose proof (bin_pass_sound 2 _ (List.length (bp [Exponent] (np its []) [])) S3 _ [] [] ts (seg_nil _) (or_intror H2)) as H3.
  pose proof (bin_pass_sound 3 _ (List.length (bp [Modulus] (bp [Exponent] (np its []) []) [])) S4 _ [] [] ts (seg_nil _) (or_intror H3)) as H4.
  pose proof (bin_pass_sound 4 _ (List.length (bp [Multiply; Divide] (bp [Modulus] (bp [Exponent] (np its []) []) []) [])) S5 _ [] [] ts (seg_nil _) (or_intror H4)) as H5.
  exact H5.
Qed.

(** The passes never make a non-empty list empty. *)
Lemma bin_pass_nonempty f slice : forall ooos temp, (ooos <> [] \/ temp <> []) -> bin_pass f slice ooos temp <> [].
Proof.
  induction f as [|f IH]; intros ooos temp H; cbn [bin_pass].
  - intros E. apply app_eq_nil in E as [-> ->]. destruct H; congruence.
  - destruct ooos as [|[a|q] rest]; [destruct H; congruence| |].
    + destruct rest as [|[b|q] rest]; try (apply IH; right; destruct temp; discriminate).
      destruct rest as [|[b|q'] rest]; try (apply IH; right; destruct temp; discriminate).
      destruct (in_operator_slice _ _); [apply IH; left; discriminate|apply IH; right; destruct temp; discriminate].
    + apply IH; right; destruct temp; discriminate.
Qed.
Lemma neg_pass_nonempty f : forall back temp, (back <> [] \/ temp <> []) -> neg_pass f back temp <> [].
Proof.
  induction f as [|f IH]; intros back temp H; cbn [neg_pass].
  - intros E. apply app_eq_nil in E as [E ->]. destruct H as [H|H]; [|congruence].
    apply H. rewrite <- (rev_involutive back), E. reflexivity.
  - destruct back as [|[n|q] rest]; [destruct H; congruence| |].
    + destruct rest as [|[m|q] rest]; try (apply IH; right; discriminate).
      destruct (_ && _); [apply IH; left; discriminate|apply IH; right; discriminate].
    + apply IH; right; discriminate.
Qed.
Lemma passes_empty its : apply_passes its = [] -> its = [].
Proof.
  intros H. rewrite apply_passes_eq in H. destruct its as [|x its]; [reflexivity|]. exfalso. revert H.
  unfold bp. repeat (apply bin_pass_nonempty; left). apply neg_pass_nonempty. left.
  simpl. destruct (rev its); discriminate.
Qed.

(** ** The operator table is complete: the panic of src/syntax_tree.rs:591 is unreachable. *)

(** No operand-operator-operand triple with an operator of level at most [l]. *)
Fixpoint no_triple (l : nat) (its : list ooo) : Prop :=
  match its with
  | IOperand a :: ((IOperator q :: IOperand b :: _) as rest) => l < binop_level (pd_value q) /\ no_triple l rest
  | _ :: rest => no_triple l rest
  | [] => True
  end.
Lemma no_triple_cons_op l q its : no_triple l (IOperator q :: its) <-> no_triple l its.
Proof. reflexivity. Qed.
Lemma no_triple_tail l x its : no_triple l (x :: its) -> no_triple l its.
Proof.
  destruct x as [a|q]; [|intros H; exact H].
  destruct its as [|[b|q] its]; intros H; try exact H. destruct its as [|[b|q'] its]; try exact H. apply H.
Qed.

(** decomposition view *)
Lemma no_triple_iff l its : no_triple l its <->
  forall pre a q b post, its = pre ++ IOperand a :: IOperator q :: IOperand b :: post -> l < binop_level (pd_value q).
Proof.
  induction its as [|x its IH].
  - split; [|intros; exact I]. intros _ pre a q b post E. destruct pre; discriminate.
  - split.
    + intros H pre a q b post E. destruct pre as [|y pre].
      * simpl in E. injection E as -> ->. apply H.
      * simpl in E. injection E as -> E. apply no_triple_tail in H. eapply (proj1 IH H); eauto.
    + intros H. assert (Ht : no_triple l its).
      { apply IH. intros pre a q b post ->. apply (H (x :: pre) a q b post eq_refl). }
      destruct x as [a|q]; [|exact Ht].
      destruct its as [|[b|q] its]; try exact Ht. destruct its as [|[b|q'] its]; try exact Ht.
      split; [apply (H [] a q b its eq_refl)|exact Ht].
Qed.

(** Pass at level [S l] turns [no_triple l] into [no_triple (S l)].  Invariant: in
    [temp ++ ooos] triples lying within [temp] extended by two items have level > S l. *)
Lemma bin_pass_no_triple l slice f : slice_of (S l) slice -> forall ooos temp,
  List.length ooos <= f -> no_triple l (temp ++ ooos) ->
  (forall pre a q b post, temp ++ ooos = pre ++ IOperand a :: IOperator q :: IOperand b :: post ->
      List.length pre < List.length temp -> S l < binop_level (pd_value q)) ->
  no_triple (S l) (bin_pass f slice ooos temp).
Proof.
  intros Hs. induction f as [|f IH]; intros ooos temp Hlen Hn Hinv.
  - destruct ooos; [|simpl in Hlen; lia]. simpl. rewrite app_nil_r in *.
    apply no_triple_iff. intros pre a q b post ->. eapply Hinv; [reflexivity|]. rewrite app_length. simpl. lia.
  - destruct ooos as [|x rest].
    + simpl. rewrite app_nil_r in *.
      apply no_triple_iff. intros pre a q b post ->. eapply Hinv; [reflexivity|]. rewrite app_length. simpl. lia.
    + assert (Hmove : (forall a q b post, x :: rest = IOperand a :: IOperator q :: IOperand b :: post -> S l < binop_level (pd_value q)) ->
                no_triple (S l) (bin_pass f slice rest (temp ++ [x]))).
      { intros Hx. apply IH; [simpl in Hlen; lia|rewrite <- app_assoc; exact Hn|].
        intros pre a q b post E Hl. rewrite <- app_assoc in E. cbn [app] in E.
        rewrite app_length in Hl. simpl in Hl.
        destruct (Nat.eq_dec (List.length pre) (List.length temp)) as [Heq|Hne].
        - assert (Hsplit : pre = temp /\ IOperand a :: IOperator q :: IOperand b :: post = x :: rest).
          { clear -E Heq. revert temp Heq E. induction pre as [|y pre IH]; intros [|z temp] Hl E; try discriminate.
            - split; [reflexivity|]. symmetry. exact E.
            - simpl in *. injection E as -> E. destruct (IH temp ltac:(lia) E) as [-> ->]. auto. }
          destruct Hsplit as [_ Hsplit]. eapply Hx. symmetry. exact Hsplit.
        - eapply Hinv; [exact E|lia]. }
      destruct x as [a|q]; [|cbn [bin_pass]; apply Hmove; discriminate].
      destruct rest as [|[b|q] rest]; cbn [bin_pass]; try (apply Hmove; discriminate).
      destruct rest as [|[b|q'] rest]; try (apply Hmove; discriminate).
      destruct (in_operator_slice (IOperator q) slice) eqn:E.
      * destruct q as [o p]. cbn [pd_value pd_pos] in *.
        apply IH; [simpl in *; lia| |].
        -- (* the merged operand stands in a triple only if the old right operand did, or on the right side of an old triple *)
           apply no_triple_iff. intros pre a0 q b0 post E0.
           rewrite no_triple_iff in Hn.
           assert (Hd : exists pre' a1 b1 post', temp ++ IOperand a :: IOperator (mkPositioned o p) :: IOperand b :: rest =
                      pre' ++ IOperand a1 :: IOperator q :: IOperand b1 :: post').
           { clear -E0. revert pre E0. induction temp as [|y temp IHt]; intros pre E0.
             - cbn [app] in E0. destruct pre as [|z pre].
               + cbn [app] in E0. injection E0 as _ E0. subst rest.
                 exists [IOperand a; IOperator (mkPositioned o p)], b, b0, post. reflexivity.
               + cbn [app] in E0. injection E0 as _ E0. subst rest.
                 exists (IOperand a :: IOperator (mkPositioned o p) :: IOperand b :: pre), a0, b0, post. reflexivity.
             - destruct pre as [|z pre].
               + cbn [app] in E0. injection E0 as -> E0.
                 destruct temp as [|y2 temp].
                 * discriminate.
                 * cbn [app] in E0. injection E0 as -> E0. destruct temp as [|y3 temp].
                   -- cbn [app] in E0. exists [], a0, a, (IOperator (mkPositioned o p) :: IOperand b :: rest). reflexivity.
                   -- cbn [app] in E0. injection E0 as -> E0. exists [], a0, b0, (temp ++ IOperand a :: IOperator (mkPositioned o p) :: IOperand b :: rest). reflexivity.
               + cbn [app] in E0. injection E0 as -> E0. destruct (IHt pre E0) as (p' & a1 & b1 & q' & E1).
                 exists (z :: p'), a1, b1, q'. cbn [app]. f_equal. exact E1. }
           destruct Hd as (pre' & a1 & b1 & post' & Hd). eapply Hn; eauto.
        -- intros pre a0 q b0 post E0 Hl.
           assert (Hd : exists b1 post', temp ++ IOperand a :: IOperator (mkPositioned o p) :: IOperand b :: rest =
                      pre ++ IOperand a0 :: IOperator q :: IOperand b1 :: post').
           { clear -E0 Hl. revert pre E0 Hl. induction temp as [|y temp IHt]; intros pre E0 Hl; [simpl in Hl; lia|].
             destruct pre as [|z pre].
             + cbn [app] in E0 |- *. injection E0 as -> E0. destruct temp as [|y2 temp].
               * discriminate.
               * cbn [app] in E0. injection E0 as -> E0. destruct temp as [|y3 temp].
                 -- cbn [app]. eexists a, _. reflexivity.
                 -- cbn [app] in E0. injection E0 as -> E0. eexists b0, _. reflexivity.
             + cbn [app] in E0. injection E0 as -> E0. simpl in Hl.
               destruct (IHt pre E0 ltac:(lia)) as (b1 & q' & E1). exists b1, q'. cbn [app]. f_equal. exact E1. }
           destruct Hd as (b1 & post' & Hd). eapply Hinv; eauto.
      * apply Hmove. intros a0 q0 b0 post E0. injection E0 as <- <- <- <-.
        destruct q as [o p]. rewrite (in_slice_level (S l)) in E by exact Hs. apply Nat.eqb_neq in E.
        cbn [pd_value]. rewrite no_triple_iff in Hn.
        specialize (Hn temp a (mkPositioned o p) b rest eq_refl). cbn [pd_value] in Hn. lia.
Qed.

Lemma passes_no_triple its : no_triple 5 (apply_passes its).
Proof.
  rewrite apply_passes_eq. destruct slices as (S2 & S3 & S4 & S5).
  assert (H1 : no_triple 1 (np its [])).
  { apply no_triple_iff. intros pre a q b post _. pose proof (binop_level_ge (pd_value q)). lia. }
  assert (Step : forall l slice x, slice_of (S l) slice -> no_triple l x -> no_triple (S l) (bp slice x [])).
  { intros l slice x Hs Hx. apply (bin_pass_no_triple l slice); [exact Hs|lia|exact Hx|].
    intros pre a q b post _ Hl. simpl in Hl. lia. }
  apply (Step 4 _ _ S5), (Step 3 _ _ S4), (Step 2 _ _ S3), (Step 1 _ _ S2), H1.
Qed.
Lemma finish_no_panic its p : finish_expression its <> Panic p.
Proof.
  unfold finish_expression. pose proof (passes_no_triple its) as H.
  destruct (apply_passes its) as [|[a|q] [|[b|q2] [|[c|q3] r]]]; try discriminate.
  destruct H as [H _]. pose proof (binop_level_ge (pd_value q2)). lia.
Qed.
