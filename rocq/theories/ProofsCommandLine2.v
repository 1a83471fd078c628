(** ProofsCommandLine2.v -- what the settings of a command line mean. *)
From Verif Require Import Base Position Num TokenTypes Errors Token SavedData Variables InputHistory
  SyntaxTree Commands Calculate Editor Main CommandLine SpecCommandLine.
From Verif Require Import ProofsCommandLine.
From Coq Require Import String Lia Permutation.
Local Open Scope list_scope.

(** ** Numbers *)
Lemma read_digits_spec s : forall acc n, read_digits s acc = Some n <->
  Forall (fun c => (48 <= c <= 57)%N) s /\ fold_left (fun m c => 10 * m + digit_value c)%N s acc = n.
Proof.
  induction s as [|c s IH]; intros acc n; cbn [read_digits fold_left].
  - split; [intros H; injection H as <-; split; [constructor|reflexivity]|intros [_ <-]; reflexivity].
  - destruct (N.leb_spec 48 c), (N.leb_spec c 57); cbn [andb]; try (split; [discriminate|intros [F _]; inversion F; lia]).
    rewrite IH. unfold digit_value. split; intros [F E]; (split; [|exact E]); [constructor; [lia|exact F]|inversion F; assumption].
Qed.
Lemma digits_first ds c s : Forall (fun d => (48 <= d <= 57)%N) ds -> ds = c :: s -> c <> c_plus /\ c <> c_minus.
Proof. intros F ->. inversion F as [|? ? H]. change c_plus with 43%N. change c_minus with 45%N. lia. Qed.
Lemma read_u8_spec lo hi s n : read_u8 lo hi s = Some n <-> number s n /\ (lo <= n <= hi)%N.
Proof.
  assert (R : forall b (ds : str), match ds with [] => None | _ => match read_digits ds 0 with Some m => if b && negb (N.eqb m 0) then None else if N.leb lo m && N.leb m hi then Some m else None | None => None end end = Some n <->
              ds <> [] /\ Forall (fun c => (48 <= c <= 57)%N) ds /\ digits_value ds = n /\ (b = true -> n = 0%N) /\ (lo <= n <= hi)%N).
  { intros b ds. destruct ds as [|c ds]; [split; [discriminate|intros [X _]; congruence]|]. pose proof (read_digits_spec (c :: ds) 0) as D. destruct (read_digits (c :: ds) 0) as [m|] eqn:E.
    - destruct (proj1 (D m) eq_refl) as [F V]. fold (digits_value (c :: ds)) in V. split.
      + intros H. assert (Hm : m = n /\ (b = true -> m = 0%N) /\ (lo <= m <= hi)%N).
        { destruct b, (N.eqb_spec m 0); cbn [andb negb] in H; try discriminate H; destruct (N.leb_spec lo m), (N.leb_spec m hi); cbn [andb] in H; try discriminate H; injection H as <-; (split; [reflexivity|]; split; [intros; (assumption || discriminate)|lia]). }
        destruct Hm as (<- & H1 & H2). split; [discriminate|]. auto.
      + intros (_ & _ & V' & Hb & Hr). assert (m = n) as -> by congruence. clear - Hb Hr.
        destruct (N.leb_spec lo n), (N.leb_spec n hi); try lia. cbn [andb]. destruct b; [rewrite (Hb eq_refl); reflexivity|reflexivity].
    - split; [discriminate|]. intros (_ & F & V & _). assert (X : @None N = Some n) by (apply D; split; [exact F|exact V]). discriminate X. }
  assert (G : read_u8 lo hi s = Some n <-> exists b ds, ds <> [] /\ Forall (fun c => (48 <= c <= 57)%N) ds /\ digits_value ds = n /\ (b = true -> n = 0%N) /\ (lo <= n <= hi)%N /\
             (s = ds /\ b = false \/ s = c_plus :: ds /\ b = false \/ s = c_minus :: ds /\ b = true)).
  { unfold read_u8. destruct s as [|c s].
    - split; [discriminate|]. intros (b & ds & Hn & _ & _ & _ & _ & [[X _]|[[X _]|[X _]]]); [destruct (Hn (eq_sym X))|discriminate X|discriminate X].
    - destruct (N.eqb_spec c c_plus) as [-> |Hp]; [|destruct (N.eqb_spec c c_minus) as [-> |Hm]].
      + rewrite (R false s). split.
        * intros (H1 & H2 & H3 & H4 & H5). exists false, s. repeat (split; [assumption|]). right. left. auto.
        * intros (b & ds & H1 & H2 & H3 & H4 & H5 & [[X ->]|[[X ->]|[X ->]]]); [destruct (proj1 (digits_first _ _ _ H2 (eq_sym X)) eq_refl)|injection X as ->; auto 6|discriminate X].
      + rewrite (R true s). split.
        * intros (H1 & H2 & H3 & H4 & H5). exists true, s. repeat (split; [assumption|]). right. right. auto.
        * intros (b & ds & H1 & H2 & H3 & H4 & H5 & [[X ->]|[[X ->]|[X ->]]]); [destruct (proj2 (digits_first _ _ _ H2 (eq_sym X)) eq_refl)|discriminate X|injection X as ->; auto 6].
      + rewrite (R false (c :: s)). split.
        * intros (H1 & H2 & H3 & H4 & H5). exists false, (c :: s). repeat (split; [assumption|]). left. auto.
        * intros (b & ds & H1 & H2 & H3 & H4 & H5 & [[X ->]|[[X ->]|[X ->]]]); [subst ds; auto 6|congruence|congruence]. }
  rewrite G. unfold number. split.
  - intros (b & ds & H1 & H2 & H3 & H4 & H5 & K). split; [|exact H5]. exists ds. repeat (split; [assumption|]).
    destruct K as [[-> _]|[[-> _]|[-> ->]]]; [left; reflexivity|right; left; reflexivity|right; right; split; [reflexivity|auto]].
  - intros ((ds & H1 & H2 & H3 & K) & H5). destruct K as [->|[->|[-> H0]]]; [exists false, ds|exists false, ds|exists true, ds]; repeat (split; [assumption|]); (split; [intros; (discriminate || assumption)|]); (split; [exact H5|]);
      [left|right; left|right; right]; split; reflexivity.
Qed.
Lemma number_unique s n n' : number s n -> number s n' -> n = n'.
Proof.
  intros H H'. assert (A : read_u8 n n s = Some n) by (apply read_u8_spec; split; [exact H|lia]).
  assert (B : read_u8 n' n' s = Some n') by (apply read_u8_spec; split; [exact H'|lia]).
  assert (A' : read_u8 0 (N.max n n') s = Some n) by (apply read_u8_spec; split; [exact H|lia]).
  assert (B' : read_u8 0 (N.max n n') s = Some n') by (apply read_u8_spec; split; [exact H'|lia]). congruence.
Qed.

(** ** The settings put so far *)
Definition shows_number (lo hi : N) (o : cli_option) (v : option N) (ss : list setting) : Prop :=
  forall n, v = Some n <-> exists text, In (Choice o text) ss /\ read_u8 lo hi text = Some n.
Record holds (ss : list setting) (g : given) : Prop := mkHolds {
  h_once : NoDup (map named ss); h_proper : Forall proper ss;
  h_radix : shows_number 2 16 ORadix (v_radix g) ss;
  h_convert : shows_number 1 16 OConvertToRadix (v_convert g) ss;
  h_precision : shows_number 0 255 OPrecision (v_precision g) ss;
  h_extra : shows_number 0 255 OExtraPrecision (v_extra g) ss;
  h_input : forall t, v_input g = Some t <-> In (Choice OInput t) ss;
  h_alternate : v_alternate g = true <-> In (Switch FAlternateScreen) ss;
  h_no_db : v_no_db g = true <-> In (Switch FNoDb) ss;
  h_fractional : v_fractional g = true <-> In (Switch FFractional) ss;
  h_commas : v_commas g = true <-> In (Switch FCommas) ss;
  h_upper : v_upper g = true <-> In (Switch FUpper) ss }.
Definition is_given (n : cli_name) (g : given) : Prop :=
  match n with
  | NOption ORadix => v_radix g <> None | NOption OInput => v_input g <> None | NOption OConvertToRadix => v_convert g <> None
  | NOption OPrecision => v_precision g <> None | NOption OExtraPrecision => v_extra g <> None
  | NFlag FAlternateScreen => v_alternate g = true | NFlag FNoDb => v_no_db g = true | NFlag FFractional => v_fractional g = true
  | NFlag FCommas => v_commas g = true | NFlag FUpper => v_upper g = true | NFlag FHelp | NFlag FVersion => False
  end.
Definition range (o : cli_option) : N * N := match o with ORadix => (2, 16) | OConvertToRadix => (1, 16) | _ => (0, 255) end%N.
Lemma takes_read o text : o <> OInput -> takes o text <-> exists n, read_u8 (fst (range o)) (snd (range o)) text = Some n.
Proof.
  intros H. destruct o; cbn [takes range fst snd]; [| congruence | | |]; split; intros (n & K); exists n; try (apply read_u8_spec; destruct K; split; [assumption|lia]); apply read_u8_spec in K as [K1 K2]; (split; [assumption|lia]).
Qed.
Lemma named_in n ss : In n (map named ss) -> match n with NFlag f => In (Switch f) ss | NOption o => exists text, In (Choice o text) ss end.
Proof. intros H. apply in_map_iff in H as (s & <- & H). destruct s; cbn [named]; [exact H|eexists; exact H]. Qed.
Lemma shows_given lo hi o v ss : shows_number lo hi o v ss -> (forall text, In (Choice o text) ss -> exists n, read_u8 lo hi text = Some n) -> v <> None <-> In (NOption o) (map named ss).
Proof.
  intros H P. split.
  - intros N. destruct v as [n|]; [|congruence]. destruct (proj1 (H n) eq_refl) as (t & I & _). apply in_map_iff. exists (Choice o t). auto.
  - intros I. apply named_in in I as (t & I). destruct (P _ I) as (n & R). intros X. assert (v = Some n) by (apply H; exists t; auto). congruence.
Qed.
Lemma holds_given ss g n : holds ss g -> n <> NFlag FHelp -> n <> NFlag FVersion -> is_given n g <-> In n (map named ss).
Proof.
  intros H Nh Nv. assert (P : forall o text, o <> OInput -> In (Choice o text) ss -> exists m, read_u8 (fst (range o)) (snd (range o)) text = Some m).
  { intros o text No I. apply takes_read; [exact No|]. exact (proj1 (Forall_forall _ _) (h_proper _ _ H) _ I). }
  assert (Fl : forall f (b : bool), b = true <-> In (Switch f) ss -> b = true <-> In (NFlag f) (map named ss)).
  { intros f b E. rewrite E. split; [intros I; apply in_map_iff; exists (Switch f); auto|intros I; exact (named_in _ _ I)]. }
  destruct n as [[]|[]]; cbn [is_given]; try congruence; try (apply Fl; apply H).
  - apply (shows_given 2 16); [apply H|]. intros t I. apply (P ORadix); [discriminate|exact I].
  - split.
    + intros N. destruct (v_input g) as [t|] eqn:E; [|congruence]. apply in_map_iff. exists (Choice OInput t). split; [reflexivity|]. apply (h_input _ _ H). exact E.
    + intros I. apply named_in in I as (t & I). apply (h_input _ _ H) in I. congruence.
  - apply (shows_given 1 16); [apply H|]. intros t I. apply (P OConvertToRadix); [discriminate|exact I].
  - apply (shows_given 0 255); [apply H|]. intros t I. apply (P OPrecision); [discriminate|exact I].
  - apply (shows_given 0 255); [apply H|]. intros t I. apply (P OExtraPrecision); [discriminate|exact I].
Qed.
(** ** One more setting *)
Lemma cli_option_eq_dec (a b : cli_option) : {a = b} + {a <> b}.
Proof. decide equality. Qed.
Lemma put_proper s g g' : put_setting s g = inl g' -> ~ is_given (named s) g /\ proper s.
Proof.
  destruct s as [f|o v]; cbn [put_setting named proper].
  - destruct f; cbn [set_flag is_given]; intros E; try discriminate E; match type of E with (if ?b then _ else _) = _ => destruct b end; try discriminate E; (split; [discriminate|split; discriminate]).
  - intros E. destruct (cli_option_eq_dec o OInput) as [-> |N].
    + cbn [set_option is_given] in *. destruct (v_input g); [discriminate E|]. split; [congruence|exact I].
    + rewrite (takes_read o v N). destruct o; try congruence; cbn [set_option is_given range fst snd] in *;
        repeat match type of E with match ?x with _ => _ end = _ => destruct x end; try discriminate E; (split; [congruence|eexists; reflexivity]).
Qed.
Lemma put_works s g : ~ is_given (named s) g -> proper s -> exists g', put_setting s g = inl g'.
Proof.
  destruct s as [f|o v]; cbn [put_setting named proper].
  - intros N [Hh Hv]. destruct f; try congruence; cbn [set_flag is_given] in *; match goal with |- context [if ?b then _ else _] => destruct b end; try congruence; eexists; reflexivity.
  - intros N P. destruct (cli_option_eq_dec o OInput) as [-> |No].
    + cbn [set_option is_given] in *. destruct (v_input g); [destruct N; discriminate|]. eexists; reflexivity.
    + apply (takes_read o v No) in P as (n & P). destruct o; try congruence; cbn [set_option is_given range fst snd] in *; rewrite P;
        match goal with |- context [match ?x with _ => _ end] => destruct x end; try (destruct N; discriminate); eexists; reflexivity.
Qed.
Lemma shows_more lo hi o v ss s : shows_number lo hi o v ss -> named s <> NOption o -> shows_number lo hi o v (ss ++ [s]).
Proof.
  intros H N n. rewrite (H n). split; intros (t & I & R); exists t; (split; [|exact R]).
  - apply in_app_iff. left. exact I.
  - apply in_app_iff in I as [I|[-> |[]]]; [exact I|]. destruct N. reflexivity.
Qed.
Lemma shows_new lo hi o t n ss : shows_number lo hi o None ss -> read_u8 lo hi t = Some n -> shows_number lo hi o (Some n) (ss ++ [Choice o t]).
Proof.
  intros H R m. split.
  - intros X. injection X as <-. exists t. split; [apply in_app_iff; right; left; reflexivity|exact R].
  - intros (t' & I & R'). apply in_app_iff in I as [I|[I|[]]].
    + assert (X : @None N = Some m) by (apply H; exists t'; auto). discriminate X.
    + injection I as <-. congruence.
Qed.
Lemma flag_more f (b : bool) ss s : b = true <-> In (Switch f) ss -> named s <> NFlag f -> b = true <-> In (Switch f) (ss ++ [s]).
Proof.
  intros H N. rewrite H, in_app_iff. split; [auto|]. intros [I|[-> |[]]]; [exact I|]. destruct N. reflexivity.
Qed.
Lemma flag_new f ss : true = true <-> In (Switch f) (ss ++ [Switch f]).
Proof. split; [intros _; apply in_app_iff; right; left; reflexivity|reflexivity]. Qed.
Lemma input_more (v : option str) ss s : (forall t, v = Some t <-> In (Choice OInput t) ss) -> named s <> NOption OInput -> forall t, v = Some t <-> In (Choice OInput t) (ss ++ [s]).
Proof.
  intros H N t. rewrite (H t), in_app_iff. split; [auto|]. intros [I|[-> |[]]]; [exact I|]. destruct N. reflexivity.
Qed.
Lemma input_new ss t0 : (forall t, None = Some t <-> In (Choice OInput t) ss) -> forall t, Some t0 = Some t <-> In (Choice OInput t) (ss ++ [Choice OInput t0]).
Proof.
  intros H t. rewrite in_app_iff, <- H. split; [intros E; injection E as <-; right; left; reflexivity|]. intros [E|[E|[]]]; [discriminate E|]. injection E as <-. reflexivity.
Qed.
Lemma once_more ss s : NoDup (map named ss) -> ~ In (named s) (map named ss) -> NoDup (map named (ss ++ [s])).
Proof.
  intros H N. rewrite map_app. cbn [map]. apply (Permutation_NoDup (Permutation_cons_append (map named ss) (named s))). constructor; assumption.
Qed.
Lemma put_holds ss s g g' : holds ss g -> put_setting s g = inl g' -> holds (ss ++ [s]) g'.
Proof.
  intros H E. destruct (put_proper _ _ _ E) as [N P].
  assert (O : NoDup (map named (ss ++ [s]))).
  { apply once_more; [apply H|]. rewrite <- (holds_given _ _ _ H); [exact N| |]; intros X; destruct s as [f|]; try discriminate X; injection X as ->; destruct P; congruence. }
  assert (Q : Forall proper (ss ++ [s])) by (apply Forall_app; split; [apply H|constructor; [exact P|constructor]]). clear N.
  destruct s as [f|o v]; cbn [put_setting] in E.
  - destruct P as [P1 P2]. destruct f; try congruence; cbn [set_flag] in E; match type of E with (if ?b then _ else _) = _ => destruct b end; try discriminate E; injection E as <-; constructor; try assumption;
      first [apply shows_more; [apply H|discriminate]|apply input_more; [apply H|discriminate]|apply flag_new|apply flag_more; [apply H|discriminate]].
  - destruct o; cbn [set_option] in E.
    + destruct (v_radix g) eqn:Eg, (read_u8 2 16 v) eqn:R; try discriminate E. injection E as <-. constructor; try assumption;
        first [apply shows_more; [apply H|discriminate]|apply input_more; [apply H|discriminate]|apply flag_more; [apply H|discriminate]|apply shows_new; [rewrite <- Eg; apply H|exact R]].
    + destruct (v_input g) eqn:Eg; try discriminate E. injection E as <-. constructor; try assumption;
        first [apply shows_more; [apply H|discriminate]|apply flag_more; [apply H|discriminate]|apply input_new; rewrite <- Eg; apply H].
    + destruct (v_convert g) eqn:Eg, (read_u8 1 16 v) eqn:R; try discriminate E. injection E as <-. constructor; try assumption;
        first [apply shows_more; [apply H|discriminate]|apply input_more; [apply H|discriminate]|apply flag_more; [apply H|discriminate]|apply shows_new; [rewrite <- Eg; apply H|exact R]].
    + destruct (v_precision g) eqn:Eg, (read_u8 0 255 v) eqn:R; try discriminate E. injection E as <-. constructor; try assumption;
        first [apply shows_more; [apply H|discriminate]|apply input_more; [apply H|discriminate]|apply flag_more; [apply H|discriminate]|apply shows_new; [rewrite <- Eg; apply H|exact R]].
    + destruct (v_extra g) eqn:Eg, (read_u8 0 255 v) eqn:R; try discriminate E. injection E as <-. constructor; try assumption;
        first [apply shows_more; [apply H|discriminate]|apply input_more; [apply H|discriminate]|apply flag_more; [apply H|discriminate]|apply shows_new; [rewrite <- Eg; apply H|exact R]].
Qed.
Lemma nothing_holds : holds [] nothing_given.
Proof.
  constructor; [apply NoDup_nil|apply Forall_nil|intros n; split; [discriminate|intros (t & [] & _)]|intros n; split; [discriminate|intros (t & [] & _)]|intros n; split; [discriminate|intros (t & [] & _)]|intros n; split; [discriminate|intros (t & [] & _)]|intros n|..];
    (split; [discriminate|intros []]).
Qed.
Lemma give_holds ss : forall g', give ss nothing_given = Some g' -> holds ss g'.
Proof.
  induction ss as [|s ss IH] using rev_ind; intros g' E; [injection E as <-; apply nothing_holds|].
  rewrite give_app in E. destruct (give ss nothing_given) as [g|]; [|discriminate E]. cbn [give] in E. destruct (put_setting s g) as [g1|] eqn:S; [|discriminate E]. injection E as <-.
  exact (put_holds _ _ _ _ (IH _ eq_refl) S).
Qed.
Lemma give_works ss : NoDup (map named ss) -> Forall proper ss -> exists g', give ss nothing_given = Some g'.
Proof.
  induction ss as [|s ss IH] using rev_ind; intros N P; [eexists; reflexivity|]. apply Forall_app in P as [P1 P2]. inversion P2 as [|? ? P3 _]; subst.
  rewrite map_app in N. cbn [map] in N. pose proof (NoDup_remove_1 _ _ _ N) as N1. rewrite app_nil_r in N1. pose proof (NoDup_remove_2 _ _ _ N) as N2. rewrite app_nil_r in N2.
  destruct (IH N1 P1) as (g & G). pose proof (give_holds _ _ G) as H. destruct (put_works s g) as (g' & E); [|exact P3|exists g'; rewrite give_app, G; cbn [give]; rewrite E; reflexivity].
  rewrite (holds_given _ _ _ H); [exact N2| |]; intros X; destruct s as [f|]; try discriminate X; injection X as ->; destruct P3; congruence.
Qed.

(** ** The meaning *)
Lemma shows_means lo hi o v ss : shows_number lo hi o v ss -> (forall text, In (Choice o text) ss -> exists n, read_u8 lo hi text = Some n) -> given_number ss o v.
Proof.
  intros H P. destruct v as [n|]; cbn [given_number].
  - destruct (proj1 (H n) eq_refl) as (t & I & R). exists t. split; [exact I|]. exact (proj1 (proj1 (read_u8_spec _ _ _ _) R)).
  - intros t I. destruct (P _ I) as (n & R). assert (X : @None N = Some n) by (apply H; exists t; auto). discriminate X.
Qed.
Lemma or_default_means ss o v d : given_number ss o v -> number_or ss o d (or_default v d).
Proof. destruct v; intros H; [left; exact H|right; split; [exact H|reflexivity]]. Qed.
Lemma holds_means ss g : holds ss g -> means ss (finish_args g).
Proof.
  intros H. assert (P : forall o text, o <> OInput -> In (Choice o text) ss -> exists m, read_u8 (fst (range o)) (snd (range o)) text = Some m).
  { intros o text No I. apply takes_read; [exact No|]. exact (proj1 (Forall_forall _ _) (h_proper _ _ H) _ I). }
  constructor; cbn [finish_args o_args o_input o_no_db a_radix a_convert_to_radix a_precision a_extra_precision a_alternate_screen a_fractional a_commas a_upper]; try apply H.
  - apply or_default_means. apply (shows_means 2 16); [apply H|]. intros t I. apply (P ORadix); [discriminate|exact I].
  - apply (shows_means 1 16); [apply H|]. intros t I. apply (P OConvertToRadix); [discriminate|exact I].
  - apply or_default_means. apply (shows_means 0 255); [apply H|]. intros t I. apply (P OPrecision); [discriminate|exact I].
  - apply or_default_means. apply (shows_means 0 255); [apply H|]. intros t I. apply (P OExtraPrecision); [discriminate|exact I].
Qed.
Lemma value_once ss o t t' : NoDup (map named ss) -> In (Choice o t) ss -> In (Choice o t') ss -> t = t'.
Proof.
  induction ss as [|s ss IH]; intros N I I'; [destruct I|]. cbn [map] in N. inversion N as [|? ? N1 N2]; subst.
  assert (K : forall u, In (Choice o u) ss -> In (NOption o) (map named ss)) by (intros u Iu; apply in_map_iff; exists (Choice o u); auto).
  destruct I as [-> |I], I' as [E|I'].
  - injection E as <-. reflexivity.
  - destruct N1. exact (K _ I').
  - subst s. destruct N1. exact (K _ I).
  - exact (IH N2 I I').
Qed.
Lemma given_unique ss o v v' : NoDup (map named ss) -> given_number ss o v -> given_number ss o v' -> v = v'.
Proof.
  intros N H H'. destruct v as [n|], v' as [n'|]; cbn [given_number] in *; [| | |reflexivity].
  - destruct H as (t & I & R), H' as (t' & I' & R'). rewrite (value_once _ _ _ _ N I' I) in R'. f_equal. exact (number_unique _ _ _ R R').
  - destruct H as (t & I & _). destruct (H' _ I).
  - destruct H' as (t & I & _). destruct (H _ I).
Qed.
Lemma number_or_unique ss o d n n' : NoDup (map named ss) -> number_or ss o d n -> number_or ss o d n' -> n = n'.
Proof.
  intros N [H|[H ->]] [H'|[H' ->]]; pose proof (given_unique _ _ _ _ N H H') as E; congruence.
Qed.
Lemma switch_unique (b b' : bool) P : b = true <-> P -> b' = true <-> P -> b = b'.
Proof. intros H H'. destruct b, b'; try reflexivity; [symmetry; apply H', H; reflexivity|apply H, H'; reflexivity]. Qed.
Lemma means_unique ss o o' : NoDup (map named ss) -> means ss o -> means ss o' -> o = o'.
Proof.
  intros N H H'. destruct o as [[r al cv p x fr cm up] i nd], o' as [[r' al' cv' p' x' fr' cm' up'] i' nd'].
  destruct H as [H1 H2 H3 H4 H5 H6 H7 H8 H9 H10], H' as [K1 K2 K3 K4 K5 K6 K7 K8 K9 K10].
  cbn [o_args o_input o_no_db a_radix a_convert_to_radix a_precision a_extra_precision a_alternate_screen a_fractional a_commas a_upper] in *.
  assert (i = i') as ->.
  { destruct i as [t|]; [symmetry; apply K10, H10; reflexivity|]. destruct i' as [t|]; [apply H10, K10; reflexivity|reflexivity]. }
  rewrite (number_or_unique _ _ _ _ _ N H1 K1), (given_unique _ _ _ _ N H2 K2), (number_or_unique _ _ _ _ _ N H3 K3), (number_or_unique _ _ _ _ _ N H4 K4),
    (switch_unique _ _ _ H5 K5), (switch_unique _ _ _ H6 K6), (switch_unique _ _ _ H7 K7), (switch_unique _ _ _ H8 K8), (switch_unique _ _ _ H9 K9). reflexivity.
Qed.

(** ** The command line *)
Lemma command_line words o : parse_args words = Accepted o <-> exists ss, spells ss words /\ NoDup (map named ss) /\ Forall proper ss /\ means ss o.
Proof.
  unfold parse_args. split.
  - intros E. destruct (read_written _ _ _ _ (le_n _) E) as (ss & g' & Sp & G & ->). pose proof (give_holds _ _ G) as H. exists ss. split; [exact Sp|]. split; [apply H|]. split; [apply H|]. apply holds_means. exact H.
  - intros (ss & Sp & N & P & M). destruct (give_works _ N P) as (g & G). rewrite (written_read _ _ Sp _ _ G). f_equal. exact (means_unique _ _ _ N (holds_means _ _ (give_holds _ _ G)) M).
Qed.
