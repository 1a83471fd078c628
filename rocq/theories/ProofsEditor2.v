(** ProofsEditor2.v -- navigation, edits and the cursor. *)
From Verif Require Import Base Position Num TokenTypes Errors Token Operations SavedData Variables InputHistory SyntaxTree Commands Calculate Editor SpecEditor ProofsEditor.
From Coq Require Import String.
Local Open Scope nat_scope.
Local Open Scope list_scope.

Lemma history_ok h : history_of_session h -> ih_ok h.
Proof.
  intros (b & acts & Hw & ->). apply (hrun_refines acts (ih_new b) (sheet_of (ih_new b)) (ih_new_ok b)); [repeat split|exact Hw].
Qed.
Lemma recorded_sheet h : recalled (sheet_of h) = recorded h.
Proof. reflexivity. Qed.
Lemma shown_sheet h : ih_ok h -> exists t, shown h = Ok t /\ shown_at (sheet_of h) (ih_index h) = Some t.
Proof. intros H. apply (@current_line_shown runtime_error h H). Qed.

Lemma spares_shown k acts : forall h, ih_ok h -> well_placed acts h -> spares k acts h ->
  forall t, shown_at (sheet_of h) k = Some t -> shown_at (sheet_of (hend acts h)) k = Some t.
Proof.
  induction acts as [|act acts IH]; intros h Hok Hw Hs t Ht; [exact Ht|]. destruct Hw as [Hin Hw], Hs as (N1 & N2 & Hs).
  destruct (hstep_refines act h Hok Hin) as (Hok' & _ & s' & St & (_ & _ & _ & _ & V)). cbn [hend]. apply IH; auto.
  rewrite <- V. inversion St; subst; try exact Ht.
  - rewrite app_disk_shown, Ht. reflexivity.
  - change (sh_at (sheet_of h)) with (ih_index h). change (sh_edits (sheet_of h)) with (edits_of h).
    rewrite (put_edit_shown (sheet_of h)). destruct (Nat.eqb_spec k (ih_index h)); [|exact Ht]. destruct N2; [exact I|congruence].
  - change (sh_at (sheet_of h)) with (ih_index h). change (sh_edits (sheet_of h)) with (edits_of h).
    rewrite (put_edit_shown (sheet_of h)). destruct (Nat.eqb_spec k (ih_index h)); [|exact Ht]. destruct N2; [exact I|congruence].
  - destruct N1; exact I.
Qed.

Lemma edits_persist h acts t : ih_ok h -> well_placed acts h -> spares (ih_index h) acts h -> shown h = Ok t ->
  ih_index (hend acts h) = ih_index h -> shown (hend acts h) = Ok t.
Proof.
  intros Hok Hw Hs Ht He. destruct (shown_sheet h Hok) as (t1 & E1 & S1). assert (t1 = t) by congruence. subst t1.
  pose proof (spares_shown _ _ _ Hok Hw Hs _ S1) as S2.
  destruct (hrun_refines acts h (sheet_of h) Hok) as (_ & Hok' & _); [repeat split|exact Hw|].
  destruct (shown_sheet _ Hok') as (t2 & E2 & S3). rewrite He in S3. rewrite E2. f_equal. congruence.
Qed.

Lemma moves_placed acts h : moves_only acts -> well_placed acts h.
Proof.
  revert h. induction acts as [|a acts IH]; intros h H; [exact I|]. split.
  - intros line _. specialize (H a (or_introl eq_refl)). destruct a; try exact I; destruct H.
  - apply IH. intros b Hb. apply H. right. exact Hb.
Qed.
(** Between submits, with moves only, unedited lines are shown as recorded. *)
Lemma moves_shown acts : forall h, ih_ok h -> moves_only acts ->
  (forall k, shown_at (sheet_of h) k = nth_error ([] :: recorded h) k) ->
  exists more, recorded (hend acts h) = recorded h ++ more /\
    (forall k, shown_at (sheet_of (hend acts h)) k = nth_error ([] :: recorded (hend acts h)) k) /\ ih_ok (hend acts h).
Proof.
  induction acts as [|act acts IH]; intros h Hok Hm Hk; [exists []; rewrite app_nil_r; split; [reflexivity|split; [exact Hk|exact Hok]]|].
  assert (Hin : forall line, shown h = Ok line -> in_line act line).
  { intros line _. specialize (Hm act (or_introl eq_refl)). destruct act; try exact I; destruct Hm. }
  destruct (hstep_refines act h Hok Hin) as (Hok' & _ & s' & St & (V1 & V2 & _ & V4 & V)). cbn [hend].
  set (h' := fst (hstep act h)) in *.
  assert (X : exists m1, recorded h' = recorded h ++ m1 /\ forall k, shown_at (sheet_of h') k = nth_error ([] :: recorded h') k).
  { assert (Same : recorded h' = recorded h -> (forall k, shown_at s' k = shown_at (sheet_of h) k) ->
      exists m1, recorded h' = recorded h ++ m1 /\ forall k, shown_at (sheet_of h') k = nth_error ([] :: recorded h') k).
    { intros E1 E2. exists []. rewrite app_nil_r. split; [exact E1|]. intros k. rewrite <- V, E2, E1. apply Hk. }
    assert (R' : recorded h' = sh_session s' ++ sh_disk s') by (rewrite V1, V2; reflexivity).
    inversion St; subst; try (apply Same; [rewrite R'; reflexivity|reflexivity]).
    - exists [t]. rewrite R'. cbn [sh_session sh_disk]. rewrite app_assoc. split; [reflexivity|].
      intros k. rewrite <- V, app_disk_shown, Hk. change (recalled (sheet_of h)) with (recorded h).
      change (sh_session (sheet_of h) ++ sh_disk (sheet_of h)) with (recorded h).
      set (l := recorded h). change ([] :: l ++ [t]) with (([] :: l) ++ [t]).
      destruct (Nat.lt_ge_cases k (S (List.length l))) as [Hl|Hl].
      + rewrite nth_error_app1 by exact Hl. destruct (nth_error ([] :: l) k) eqn:E; [exact (eq_sym E) || reflexivity|].
        apply nth_error_None in E. assert (S (List.length l) <= k) by exact E. lia.
      + rewrite nth_error_app2 by exact Hl. rewrite (proj2 (nth_error_None ([] :: l) k)) by exact Hl.
        change (List.length ([] :: l)) with (S (List.length l)).
        destruct (Nat.eqb_spec k (S (List.length l))) as [->|]; [rewrite Nat.sub_diag; reflexivity|].
        destruct (k - S (List.length l)) as [|[|?]] eqn:E; [lia|reflexivity|reflexivity].
    - specialize (Hm _ (or_introl eq_refl)). destruct Hm.
    - specialize (Hm _ (or_introl eq_refl)). destruct Hm.
    - specialize (Hm _ (or_introl eq_refl)). destruct Hm. }
  destruct X as (m1 & E1 & X). destruct (IH h' Hok') as (m2 & E2 & Y & Z); [intros a Ha; apply Hm; right; exact Ha|exact X|].
  exists (m1 ++ m2). split; [rewrite E2, E1, app_assoc; reflexivity|]. split; [exact Y|exact Z].
Qed.
Lemma submit_discards h db t acts : ih_ok h -> shown h = Ok t -> moves_only acts ->
  let h2 := hend acts (fst (hstep (Submit db) h)) in
  exists more line, recorded h2 = t :: recorded h ++ more /\ shown h2 = Ok line /\
    nth_error ([] :: recorded h2) (ih_index h2) = Some line.
Proof.
  intros Hok Ht Hm. destruct (shown_sheet h Hok) as (t1 & E1 & S1). assert (t1 = t) by congruence. subst t1.
  destruct (hstep_refines (Submit db) h Hok ltac:(intros; exact I)) as (Hok' & _ & s' & St & (V1 & V2 & _ & V4 & V)).
  set (h' := fst (hstep (Submit db) h)) in *. inversion St; subst. change (sh_at (sheet_of h)) with (ih_index h) in *.
  assert (t0 = t) by congruence. subst t0.
  assert (R' : recorded h' = t :: recorded h).
  { change (recorded h') with (sh_session (sheet_of h') ++ sh_disk (sheet_of h')). rewrite <- V1, <- V2. reflexivity. }
  destruct (moves_shown acts h' Hok' Hm) as (more & E2 & Y & Z).
  { intros k. rewrite <- V, R'. reflexivity. }
  destruct (shown_sheet _ Z) as (line & E3 & S3). cbv zeta. exists more, line. rewrite E2, R'. split; [reflexivity|]. split; [exact E3|].
  rewrite <- R', <- E2, <- Y. exact S3.
Qed.

(** up and down *)
Lemma up_spec h db h' a : ih_ok h -> hstep (Up db) h = (h', a) ->
  match a with
  | Moved => ih_index h' = S (ih_index h) /\ ih_exhausted h' = ih_exhausted h /\
      (ih_index h < List.length (recorded h) /\ recorded h' = recorded h \/
       ih_index h = List.length (recorded h) /\ ih_exhausted h = false /\ exists sd t, db = Some sd /\ from_disk sd = Ok (Some t) /\ recorded h' = recorded h ++ [t])
  | Refused => ih_index h' = ih_index h /\ ih_index h = List.length (recorded h) /\ recorded h' = recorded h /\ ih_exhausted h' = true /\
      (ih_exhausted h = true \/ exists sd, db = Some sd /\ from_disk sd = Ok None)
  | Error e => h' = h /\ ih_index h = List.length (recorded h) /\ ih_exhausted h = false /\ forall sd, db = Some sd -> from_disk sd = Err e
  | Crash _ => False
  end.
Proof.
  intros Hok E. destruct (hstep_refines (Up db) h Hok ltac:(intros; exact I)) as (Hok' & NC & s' & St & (V1 & V2 & V3 & V4 & V)).
  rewrite E in *. cbn [fst snd] in *.
  assert (R' : recorded h' = sh_session s' ++ sh_disk s') by (rewrite V1, V2; reflexivity).
  assert (I' : ih_index h' = sh_at s') by (rewrite V4; reflexivity).
  assert (X' : sh_more s' = negb (ih_exhausted h')) by (rewrite V3; reflexivity).
  assert (X : sh_more (sheet_of h) = negb (ih_exhausted h)) by reflexivity.
  assert (L : List.length (recalled (sheet_of h)) = List.length (recorded h)) by reflexivity.
  assert (At : sh_at (sheet_of h) = ih_index h) by reflexivity.
  assert (NB : forall b, negb b = true -> b = false) by (intros []; auto; discriminate).
  assert (NB' : forall b, negb b = false -> b = true) by (intros []; auto; discriminate).
  inversion St; subst; cbn [sh_session sh_disk sh_more sh_at] in *.
  - rewrite I', At. split; [reflexivity|]. split; [destruct (ih_exhausted h), (ih_exhausted h'); cbn in *; congruence|].
    left. rewrite <- L, <- At. split; [assumption|]. rewrite R'. reflexivity.
  - rewrite I', At. split; [reflexivity|]. split; [destruct (ih_exhausted h), (ih_exhausted h'); cbn in *; congruence|].
    right. rewrite <- L, <- At. split; [assumption|]. split; [apply NB; congruence|]. eexists _, _. split; [reflexivity|]. split; [eassumption|].
    rewrite R', app_assoc. reflexivity.
  - rewrite I', At, <- L. split; [reflexivity|]. split; [assumption|]. split; [rewrite R'; reflexivity|]. split; [apply NB'; congruence|]. eauto.
  - rewrite I', At, <- L. split; [reflexivity|]. split; [assumption|]. split; [rewrite R'; reflexivity|]. split; [apply NB'; congruence|]. left. apply NB'. congruence.
  - assert (h' = h).
    { cbn [hstep] in E. unfold try_earlier in E. destruct (Nat.leb _ _); [|discriminate E]. destruct (ih_exhausted h); [discriminate E|].
      destruct (get_prev_input_history db0) as [db1 [[t|]|e0|p]]; try discriminate E; apply pair_equal_spec in E as [<- _]; reflexivity. }
    split; [assumption|]. split; [assumption|]. split; [apply NB; congruence|]. intros sd Esd. congruence.
  - assert (h' = h).
    { cbn [hstep] in E. unfold try_earlier in E. destruct (Nat.leb _ _); [|discriminate E]. destruct (ih_exhausted h); [discriminate E|].
      apply pair_equal_spec in E as [<- _]; reflexivity. }
    split; [assumption|]. split; [assumption|]. split; [apply NB; congruence|]. intros sd Esd. discriminate Esd.
Qed.
Lemma down_spec h : match ih_index h with
  | 0 => hstep Down h = (h, Refused)
  | S k => exists h', hstep Down h = (h', Moved) /\ ih_index h' = k /\ recorded h' = recorded h
  end.
Proof.
  unfold hstep, try_later. destruct (ih_index h); [reflexivity|]. eexists. split; [reflexivity|]. split; reflexivity.
Qed.
Lemma up_down h db h1 : ih_ok h -> hstep (Up db) h = (h1, Moved) -> exists h2, hstep Down h1 = (h2, Moved) /\
  ih_index h2 = ih_index h /\ shown h2 = shown h.
Proof.
  intros Hok E. pose proof (up_spec h db h1 Moved Hok E) as (I1 & _ & _).
  assert (W : well_placed [Up db; Down] h) by (repeat split; intros; exact I).
  assert (E2 : hend [Up db; Down] h = fst (hstep Down h1)) by (cbn [hend]; rewrite E; reflexivity).
  pose proof (down_spec h1) as D. rewrite I1 in D. destruct D as (h2 & D & I2 & _). exists h2. split; [exact D|]. split; [exact I2|].
  destruct (shown_sheet h Hok) as (t & Et & _). rewrite Et. rewrite D in E2. cbn [fst] in E2. rewrite <- E2.
  apply edits_persist; auto.
  - repeat split; auto; intros [].
  - rewrite E2. exact I2.
Qed.
Lemma down_up h db h1 : ih_ok h -> hstep Down h = (h1, Moved) -> exists h2, hstep (Up db) h1 = (h2, Moved) /\
  ih_index h2 = ih_index h /\ recorded h2 = recorded h /\ shown h2 = shown h.
Proof.
  intros Hok E. pose proof (down_spec h) as D. destruct (ih_index h) as [|k] eqn:Ek; [rewrite E in D; discriminate D|].
  destruct D as (h1' & D & I1 & R1). rewrite E in D. injection D as <-.
  destruct (hstep_refines Down h Hok ltac:(intros; exact I)) as (Hok1 & _). rewrite E in Hok1. cbn [fst] in Hok1.
  destruct (hstep (Up db) h1) as [h2 a] eqn:E2. pose proof (up_spec h1 db h2 a Hok1 E2) as U.
  assert (Lt : ih_index h1 < List.length (recorded h1)).
  { rewrite I1, R1. destruct Hok as (H1 & H2 & _). unfold recorded. rewrite app_length, rev_length. lia. }
  destruct a as [| |e|p]; [|destruct U as (_ & U & _); lia|destruct U as (_ & U & _); lia|destruct U].
  destruct U as (I2 & _ & [[_ R2]|[C _]]); [|lia]. exists h2. split; [reflexivity|]. split; [congruence|]. split; [congruence|].
  destruct (shown_sheet h Hok) as (t & Et & _). rewrite Et.
  assert (E3 : hend [Down; Up db] h = h2) by (cbn [hend]; rewrite E; cbn [fst]; rewrite E2; reflexivity). rewrite <- E3.
  apply edits_persist; auto.
  - repeat split; intros; exact I.
  - repeat split; auto; intros [].
  - rewrite E3. congruence.
Qed.
