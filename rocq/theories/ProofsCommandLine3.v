(** ProofsCommandLine3.v -- command lines that are refused, that ask for help, and what the rest comes to. *)
From Verif Require Import Base Position Num TokenTypes Errors Token SavedData Variables InputHistory
  SyntaxTree Commands Calculate Editor Main CommandLine SpecCommandLine.
From Verif Require Import ProofsCommandLine ProofsCommandLine2.
From Coq Require Import String Lia Permutation.
Local Open Scope list_scope.

(** ** Settings one after the other, up to the first that stops the reading *)
Fixpoint give_all (ss : list setting) (g : given) : given + parsed :=
  match ss with
  | [] => inl g
  | s :: ss' => match put_setting s g with inl g' => give_all ss' g' | inr stop => inr stop end
  end.
Lemma give_all_app a : forall b g, give_all (a ++ b) g = match give_all a g with inl g' => give_all b g' | inr stop => inr stop end.
Proof. induction a as [|s a IH]; intros b g; [reflexivity|]. cbn [app give_all]. destruct (put_setting s g); [apply IH|reflexivity]. Qed.
Lemma give_all_give ss : forall g, give ss g = match give_all ss g with inl g' => Some g' | inr _ => None end.
Proof. induction ss as [|s ss IH]; intros g; [reflexivity|]. cbn [give give_all]. destruct (put_setting s g); [apply IH|reflexivity]. Qed.
Lemma give_all_stops ss : forall g r, give_all ss g <> inr (Accepted r).
Proof.
  induction ss as [|s ss IH]; intros g r; cbn [give_all]; [discriminate|]. destruct (put_setting s g) as [g'|stop] eqn:E; [apply IH|]. intros X. injection X as ->.
  destruct s; [exact (flag_stops _ _ _ E)|exact (option_stops _ _ _ _ E)].
Qed.
Lemma cluster_all fs cs rest : Forall2 flag_letter fs cs -> forall g, short_cluster (cs ++ rest) g = match give_all (map Switch fs) g with inl g' => short_cluster rest g' | inr stop => inr stop end.
Proof.
  induction 1 as [|f c fs cs H F IH]; intros g; cbn [map give_all app put_setting] in *; [reflexivity|].
  cbn [short_cluster]. rewrite (proj1 (flag_lookup _ _ H)). destruct (set_flag f g) as [g1|stop]; [apply IH|reflexivity].
Qed.

(** ** What is written is read, whatever comes of it *)
Lemma spelled ss words : spells ss words -> forall rest g, rest = [] \/ ~ In (lit "--") words ->
  parse_words (words ++ rest) None g = match give_all ss g with inl g' => parse_words rest None g' | inr stop => stop end.
Proof.
  induction 1 as [| |f ss words S IH|o v ss words S IH|o v ss words P S IH|fs cs ss words F N S IH|fs cs o c v ss words F H N1 N2 S IH|fs cs o c v ss words F H S IH|fs cs o c v ss words F H P S IH]; intros rest g R.
  - reflexivity.
  - destruct R as [-> |R]; [reflexivity|]. destruct R. left. reflexivity.
  - cbn [give_all put_setting app]. destruct (long_flag f) as (w & E & Nw & L). rewrite E in *. rewrite long_step by exact Nw. rewrite L. destruct (set_flag f g) as [g1|]; cbn [after]; [|reflexivity]. apply IH. destruct R as [R|R]; [left; exact R|right; intros X; apply R; right; exact X].
  - cbn [give_all put_setting]. destruct (long_option o) as (w & E & Nw & _ & L). rewrite E in *. cbn [app] in *.
    assert (Nw' : w ++ lit "=" ++ v <> []) by (destruct w; discriminate). etransitivity; [exact (long_step (w ++ lit "=" ++ v) (words ++ rest) g Nw')|]. rewrite L. destruct (set_option o v g) as [g1|]; cbn [after]; [|reflexivity]. apply IH. destruct R as [R|R]; [left; exact R|right; intros X; apply R; right; exact X].
  - cbn [give_all put_setting app]. destruct (long_option o) as (w & E & Nw & L & _). rewrite E in *. rewrite long_step by exact Nw. rewrite L. rewrite value_step by exact P. destruct (set_option o v g) as [g1|]; [|reflexivity]. apply IH. destruct R as [R|R]; [left; exact R|right; intros X; apply R; right; right; exact X].
  - assert (R' : rest = [] \/ ~ In (lit "--") words) by (destruct R as [R|R]; [left; exact R|right; intros X; apply R; right; exact X]).
    rewrite give_all_app. pose proof (cluster_all _ _ [] F g) as X. rewrite app_nil_r in X. destruct F as [|f c fs cs Hf F]; [congruence|]. cbn [app]. rewrite short_step by apply (flag_lookup _ _ Hf).
    rewrite X. destruct (give_all (map Switch (f :: fs)) g) as [g1|]; [|reflexivity]. cbn [short_cluster]. apply IH. exact R'.
  - assert (R' : rest = [] \/ ~ In (lit "--") words) by (destruct R as [R|R]; [left; exact R|right; intros X; apply R; right; exact X]).
    destruct (first_letter fs cs o c v F H) as (c1 & w & Ew & Hc). cbn [app]. rewrite Ew, short_step by exact Hc. rewrite <- Ew.
    rewrite (cluster_all _ _ _ F), give_all_app. destruct (give_all (map Switch fs) g) as [g1|]; [|reflexivity]. rewrite (option_joined _ _ _ _ H N1). destruct v as [|c' v']; [congruence|].
    destruct (N.eqb_spec c' 61) as [-> |_]; [destruct (N2 v' eq_refl)|]. cbn [give_all put_setting]. destruct (set_option o (c' :: v') g1) as [g2|]; [|reflexivity]. cbn [after]. apply IH. exact R'.
  - assert (R' : rest = [] \/ ~ In (lit "--") words) by (destruct R as [R|R]; [left; exact R|right; intros X; apply R; right; exact X]).
    destruct (first_letter fs cs o c (lit "=" ++ v) F H) as (c1 & w & Ew & Hc). cbn [app]. change (cs ++ c :: lit "=" ++ v) with (cs ++ c :: (lit "=" ++ v)) in *. rewrite Ew, short_step by exact Hc. rewrite <- Ew.
    rewrite (cluster_all _ _ _ F), give_all_app. destruct (give_all (map Switch fs) g) as [g1|]; [|reflexivity].
    assert (X : short_cluster (c :: lit "=" ++ v) g1 = after (set_option o v g1)) by (apply (option_joined o c (lit "=" ++ v) g1 H); discriminate). rewrite X. cbn [give_all put_setting].
    destruct (set_option o v g1) as [g2|]; [|reflexivity]. cbn [after]. apply IH. exact R'.
  - assert (R' : rest = [] \/ ~ In (lit "--") words) by (destruct R as [R|R]; [left; exact R|right; intros X; apply R; right; right; exact X]).
    destruct (first_letter fs cs o c [] F H) as (c1 & w & Ew & Hc). cbn [app]. rewrite Ew, short_step by exact Hc. rewrite <- Ew.
    rewrite (cluster_all _ _ _ F), give_all_app. destruct (give_all (map Switch fs) g) as [g1|]; [|reflexivity]. cbn [short_cluster]. rewrite (proj1 (option_lookup _ _ H)). rewrite value_step by exact P. cbn [give_all put_setting].
    destruct (set_option o v g1) as [g2|]; [|reflexivity]. apply IH. exact R'.
Qed.
Lemma spelled_alone ss words g : spells ss words -> parse_words words None g = match give_all ss g with inl g' => Accepted (finish_args g') | inr stop => stop end.
Proof. intros S. rewrite <- (app_nil_r words). exact (spelled _ _ S [] g (or_introl eq_refl)). Qed.

(** ** Accepted exactly if proper *)
Lemma spelled_means ss words o : spells ss words -> parse_args words = Accepted o <-> NoDup (map named ss) /\ Forall proper ss /\ means ss o.
Proof.
  intros S. split.
  - unfold parse_args. rewrite (spelled_alone _ _ _ S). destruct (give_all ss nothing_given) as [g|stop] eqn:E; [|intros ->; destruct (give_all_stops _ _ _ E)].
    intros X. injection X as <-. assert (G : give ss nothing_given = Some g) by (rewrite give_all_give, E; reflexivity). pose proof (give_holds _ _ G) as H. split; [apply H|]. split; [apply H|apply holds_means; exact H].
  - intros K. apply command_line. exists ss. auto.
Qed.
Lemma accepted_spelled words o : parse_args words = Accepted o -> exists ss, spells ss words.
Proof. intros E. apply command_line in E as (ss & S & _). exists ss. exact S. Qed.
Lemma order_free ss ss' words words' : spells ss words -> spells ss' words' -> Permutation ss ss' ->
  forall o, parse_args words = Accepted o <-> parse_args words' = Accepted o.
Proof.
  assert (W : forall ss ss' words words', spells ss words -> spells ss' words' -> Permutation ss ss' -> forall o, parse_args words = Accepted o -> parse_args words' = Accepted o).
  { clear. intros ss ss' words words' S S' P o E. apply (spelled_means _ _ _ S) in E as (N & Q & M). apply (spelled_means _ _ _ S').
    split; [exact (Permutation_NoDup (Permutation_map _ P) N)|]. split; [exact (Permutation_Forall P Q)|].
    assert (I : forall s, In s ss <-> In s ss') by (intros s; split; apply Permutation_in; [exact P|symmetry; exact P]).
    assert (G : forall op v, given_number ss op v -> given_number ss' op v).
    { intros op [n|]; cbn [given_number]; [intros (t & It & Hn); exists t; split; [apply I; exact It|exact Hn]|intros H t It; apply (H t), I; exact It]. }
    destruct M as [M1 M2 M3 M4 M5 M6 M7 M8 M9 M10].
    constructor; try (rewrite <- I; assumption); [destruct M1 as [M1|[M1 X]]; [left|right; split]; auto| auto |destruct M3 as [M3|[M3 X]]; [left|right; split]; auto|destruct M4 as [M4|[M4 X]]; [left|right; split]; auto|intros t; rewrite <- I; apply M10]. }
  intros S S' P o. split; [exact (W _ _ _ _ S S' P o)|exact (W _ _ _ _ S' S (Permutation_sym P) o)].
Qed.

(** ** Help *)
Lemma asked f ss words rest : f = FHelp \/ f = FVersion -> spells (ss ++ [Switch f]) words -> ~ In (lit "--") words ->
  NoDup (map named ss) -> Forall proper ss -> parse_args (words ++ rest) = Shows f.
Proof.
  intros Hf S N D P. unfold parse_args. rewrite (spelled _ _ S rest nothing_given (or_intror N)). rewrite give_all_app.
  destruct (give_works _ D P) as (g & G). rewrite give_all_give in G. destruct (give_all ss nothing_given) as [g'|]; [|discriminate G]. destruct Hf as [-> | ->]; reflexivity.
Qed.
Lemma refused ss words rest : spells ss words -> ~ In (lit "--") words -> ~ In (Switch FHelp) ss -> ~ In (Switch FVersion) ss ->
  ~ (NoDup (map named ss) /\ Forall proper ss) -> parse_args (words ++ rest) = Rejected.
Proof.
  intros S N Nh Nv B. unfold parse_args. rewrite (spelled _ _ S rest nothing_given (or_intror N)).
  destruct (give_all ss nothing_given) as [g|stop] eqn:E.
  - destruct B. assert (G : give ss nothing_given = Some g) by (rewrite give_all_give, E; reflexivity). pose proof (give_holds _ _ G) as H. split; apply H.
  - clear - E Nh Nv. revert E. generalize nothing_given as g. induction ss as [|s ss IH]; intros g E; cbn [give_all] in E; [discriminate E|].
    destruct (put_setting s g) as [g'|st] eqn:Q; [apply (IH (fun X => Nh (or_intror X)) (fun X => Nv (or_intror X)) g' E)|]. injection E as ->.
    destruct s as [f|o v]; cbn [put_setting] in Q.
    + destruct f; cbn [set_flag] in Q; try (destruct Nh; left; reflexivity); try (destruct Nv; left; reflexivity); match type of Q with (if ?b then _ else _) = _ => destruct b end; congruence.
    + destruct o; cbn [set_option] in Q; repeat match type of Q with match ?x with _ => _ end = _ => destruct x end; congruence.
Qed.

(** ** The options and the ranges of the code *)
Lemma accepted_in_range words o : parse_args words = Accepted o -> cli_accepts (o_args o) = true.
Proof.
  intros E. apply command_line in E as (ss & _ & N & P & M). rewrite Forall_forall in P.
  assert (T : forall op t n, In (Choice op t) ss -> number t n -> op <> OInput -> (fst (range op) <= n <= snd (range op))%N).
  { intros op t n I Hn No. specialize (P _ I). cbn [proper] in P. apply (takes_read op t No) in P as (m & R). apply read_u8_spec in R as [Hm R]. rewrite (number_unique _ _ _ Hn Hm). exact R. }
  destruct M as [M1 M2 M3 M4 _ _ _ _ _ _]. unfold cli_accepts.
  assert (R1 : (2 <= a_radix (o_args o) <= 16)%N) by (destruct M1 as [(t & I & Hn)|[_ ->]]; [exact (T _ _ _ I Hn ltac:(discriminate))|lia]).
  assert (R3 : (a_precision (o_args o) <= 255)%N) by (destruct M3 as [(t & I & Hn)|[_ ->]]; [apply (T _ _ _ I Hn ltac:(discriminate))|lia]).
  assert (R4 : (a_extra_precision (o_args o) <= 255)%N) by (destruct M4 as [(t & I & Hn)|[_ ->]]; [apply (T _ _ _ I Hn ltac:(discriminate))|lia]).
  repeat (apply andb_true_intro; split); try (apply N.leb_le; lia); try (apply N.ltb_lt; lia).
  destruct (a_convert_to_radix (o_args o)) as [r|]; [|reflexivity]. destruct M2 as (t & I & Hn). pose proof (T _ _ _ I Hn ltac:(discriminate)) as R. cbn [range fst snd] in R.
  apply andb_true_intro; split; [apply N.leb_le|apply N.ltb_lt]; lia.
Qed.
(** Every setting in range can be written. *)
Definition three (n : N) : str := [48 + n / 100; 48 + (n / 10) mod 10; 48 + n mod 10]%N.
Lemma three_number n : (n < 1000)%N -> number (three n) n.
Proof.
  intros L. exists (three n). split; [discriminate|]. split; [|split; [|left; reflexivity]].
  - assert (A : (n / 100 < 10)%N) by (apply N.div_lt_upper_bound; lia). pose proof (N.mod_lt (n / 10) 10 ltac:(lia)). pose proof (N.mod_lt n 10 ltac:(lia)).
    unfold three. 
    set (q := (n / 100)%N) in *. set (q2 := ((n / 10) mod 10)%N) in *. set (q3 := (n mod 10)%N) in *. clearbody q q2 q3. clear L n.
    unfold char in *. repeat (apply Forall_cons; [cbv beta; split; [apply N.le_add_r|lia]|]). apply Forall_nil.
  - unfold digits_value, three, digit_value. cbn [fold_left]. rewrite !(N.add_comm 48), !N.add_sub.
    replace (n / 100)%N with ((n / 10) / 10)%N by (rewrite N.div_div by lia; f_equal). pose proof (N.div_mod' n 10). pose proof (N.div_mod' (n / 10) 10).
    set (q := (n / 10)%N) in *. set (r := (n mod 10)%N) in *. set (q1 := (q / 10)%N) in *. set (r1 := (q mod 10)%N) in *. clearbody q r q1 r1. subst n q. ring.
Qed.
Definition writing (o : options) : list setting :=
  let a := o_args o in
  [Choice ORadix (three (a_radix a)); Choice OPrecision (three (a_precision a)); Choice OExtraPrecision (three (a_extra_precision a))] ++
  match a_convert_to_radix a with Some r => [Choice OConvertToRadix (three r)] | None => [] end ++
  match o_input o with Some t => [Choice OInput t] | None => [] end ++
  (if a_alternate_screen a then [Switch FAlternateScreen] else []) ++ (if a_fractional a then [Switch FFractional] else []) ++
  (if a_commas a then [Switch FCommas] else []) ++ (if a_upper a then [Switch FUpper] else []) ++ (if o_no_db o then [Switch FNoDb] else []).
Lemma write_all ss : exists words, spells ss words.
Proof.
  induction ss as [|[f|o v] ss (words & IH)]; [exists []; constructor|eexists; apply sp_flag; exact IH|eexists; apply sp_equals; exact IH].
Qed.
Lemma every_options o : cli_accepts (o_args o) = true -> exists words, parse_args words = Accepted o.
Proof.
  intros C. destruct (write_all (writing o)) as (words & S). exists words. apply (spelled_means _ _ _ S).
  destruct o as [[r al cv p x fr cm up] i nd]. unfold cli_accepts in C. cbn [o_args a_radix a_convert_to_radix a_precision a_extra_precision] in C.
  apply andb_prop in C as [C C4]. apply andb_prop in C as [C C3]. apply andb_prop in C as [C C2]. apply andb_prop in C as [C0 C1].
  apply N.ltb_lt in C4. apply N.ltb_lt in C3. apply N.leb_le in C0. apply N.leb_le in C1.
  assert (Cv : match cv with Some r => (1 <= r <= 16)%N | None => True end).
  { destruct cv; [|exact I]. apply andb_prop in C2 as [H1 H2]. apply N.leb_le in H1. apply N.ltb_lt in H2. lia. }
  pose proof (three_number r ltac:(lia)) as Tr. pose proof (three_number p ltac:(lia)) as Tp. pose proof (three_number x ltac:(lia)) as Tx.
  assert (Tc : match cv with Some r => number (three r) r | None => True end) by (destruct cv; [apply three_number; lia|exact I]).
  unfold writing. cbn [o_args o_input o_no_db a_radix a_convert_to_radix a_precision a_extra_precision a_alternate_screen a_fractional a_commas a_upper].
  split; [|split].
  - destruct cv, i, al, fr, cm, up, nd; cbn [app map named]; repeat (constructor; [cbn [In]; intuition discriminate|]); constructor.
  - apply Forall_forall. intros s Hs. cbn [app In] in Hs. rewrite !in_app_iff in Hs.
    destruct Hs as [<- |[<- |[<- |Hs]]]; [exists r; split; [exact Tr|lia]|exists p; split; [exact Tp|lia]|exists x; split; [exact Tx|lia]|].
    destruct Hs as [Hs|[Hs|Hs]]; [destruct cv as [c|]; [destruct Hs as [<- |[]]; exists c; auto|destruct Hs]|destruct i; [destruct Hs as [<- |[]]; exact Logic.I|destruct Hs]|].
    destruct al, fr, cm, up, nd; cbn [In] in Hs; intuition (subst s; split; discriminate).
  - constructor; cbn [o_args o_input o_no_db a_radix a_convert_to_radix a_precision a_extra_precision a_alternate_screen a_fractional a_commas a_upper].
    + left. exists (three r). split; [left; reflexivity|exact Tr].
    + destruct cv as [c|]; cbn [given_number]; [exists (three c); split; [cbn; auto 6|exact Tc]|]. intros t It. cbn [app In] in It. rewrite !in_app_iff in It. destruct i, al, fr, cm, up, nd; cbn [In] in It; intuition discriminate.
    + left. exists (three p). split; [right; left; reflexivity|exact Tp].
    + left. exists (three x). split; [right; right; left; reflexivity|exact Tx].
    + cbn [app In]. rewrite !in_app_iff. destruct cv, i, al, fr, cm, up, nd; cbn [In]; intuition discriminate.
    + cbn [app In]. rewrite !in_app_iff. destruct cv, i, al, fr, cm, up, nd; cbn [In]; intuition discriminate.
    + cbn [app In]. rewrite !in_app_iff. destruct cv, i, al, fr, cm, up, nd; cbn [In]; intuition discriminate.
    + cbn [app In]. rewrite !in_app_iff. destruct cv, i, al, fr, cm, up, nd; cbn [In]; intuition discriminate.
    + cbn [app In]. rewrite !in_app_iff. destruct cv, i, al, fr, cm, up, nd; cbn [In]; intuition discriminate.
    + intros t. cbn [app In]. rewrite !in_app_iff. destruct cv, i, al, fr, cm, up, nd; cbn [In]; intuition congruence.
Qed.
