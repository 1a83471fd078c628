(** ProofsCommandLine.v -- the command line is read as it is written. *)
From Verif Require Import Base Position Num TokenTypes Errors Token SavedData Variables InputHistory
  SyntaxTree Commands Calculate Editor Main CommandLine SpecCommandLine.
From Verif Require Import ProofsLex.
From Coq Require Import String Lia.
Local Open Scope list_scope.

(** ** Settings one after the other *)
Definition put_setting (s : setting) (g : given) : given + parsed := match s with Switch f => set_flag f g | Choice o v => set_option o v g end.
Fixpoint give (ss : list setting) (g : given) : option given :=
  match ss with
  | [] => Some g
  | s :: ss' => match put_setting s g with inl g' => give ss' g' | inr _ => None end
  end.
Lemma give_app a : forall b g, give (a ++ b) g = match give a g with Some g' => give b g' | None => None end.
Proof. induction a as [|s a IH]; intros b g; [reflexivity|]. cbn [app give]. destruct (put_setting s g); [apply IH|reflexivity]. Qed.
Lemma option_stops o v g r : set_option o v g <> inr (Accepted r).
Proof. destruct o; cbn [set_option]; repeat match goal with |- context [match ?x with _ => _ end] => destruct x end; discriminate. Qed.
Lemma flag_stops f g r : set_flag f g <> inr (Accepted r).
Proof. destruct f; cbn [set_flag]; repeat match goal with |- context [if ?x then _ else _] => destruct x end; discriminate. Qed.
Definition after (r : given + parsed) : (given * option cli_option) + parsed := match r with inl g' => inl (g', None) | inr s => inr s end.

(** ** Long words *)
Lemma long_flag f : exists w, flag_name f = c_minus :: c_minus :: w /\ w <> [] /\ forall g, long_word w g = after (set_flag f g).
Proof. destruct f; eexists; (split; [reflexivity|]; split; [discriminate|]; intros g; reflexivity). Qed.
Lemma long_option o : exists w, option_name o = c_minus :: c_minus :: w /\ w <> [] /\ (forall g, long_word w g = inl (g, Some o)) /\
  forall v g, long_word (w ++ lit "=" ++ v) g = after (set_option o v g).
Proof. destruct o; eexists; (split; [reflexivity|]; split; [discriminate|]; split; intros; reflexivity). Qed.
Lemma long_step w rest g : w <> [] -> parse_words ((c_minus :: c_minus :: w) :: rest) None g =
  match long_word w g with inl (g', w') => parse_words rest w' g' | inr stop => stop end.
Proof. destruct w; [congruence|reflexivity]. Qed.
Lemma short_step c w rest g : c <> c_minus -> parse_words ((c_minus :: c :: w) :: rest) None g =
  match short_cluster (c :: w) g with inl (g', w') => parse_words rest w' g' | inr stop => stop end.
Proof.
  intros H. cbn [parse_words]. change (N.eqb c_minus c_minus) with true. cbv iota. destruct (N.eqb_spec c c_minus) as [E|_]; [destruct (H E)|]. reflexivity.
Qed.
Lemma value_step v rest o g : ordinary v -> parse_words (v :: rest) (Some o) g = match set_option o v g with inl g' => parse_words rest None g' | inr stop => stop end.
Proof.
  intros [-> |H]; [reflexivity|]. destruct v as [|c v]; [reflexivity|]. cbn [parse_words]. destruct (N.eqb_spec c c_minus) as [E|_]; [destruct (H c v eq_refl E)|reflexivity].
Qed.

(** ** Letters *)
Lemma flag_lookup f c : flag_letter f c -> look_up short_names [c] = Some (NFlag f) /\ c <> c_minus.
Proof. destruct f; cbn [flag_letter lit]; intros H; first [contradiction|injection H as ->; split; [reflexivity|discriminate]]. Qed.
Lemma option_lookup o c : option_letter o c -> look_up short_names [c] = Some (NOption o) /\ c <> c_minus.
Proof. destruct o; cbn [option_letter lit]; intros H; first [contradiction|injection H as ->; split; [reflexivity|discriminate]]. Qed.
Lemma cluster_flags fs cs rest : Forall2 flag_letter fs cs -> forall g g', give (map Switch fs) g = Some g' -> short_cluster (cs ++ rest) g = short_cluster rest g'.
Proof.
  induction 1 as [|f c fs cs H F IH]; intros g g' G; cbn [map give app put_setting] in *; [injection G as <-; reflexivity|].
  cbn [short_cluster]. rewrite (proj1 (flag_lookup _ _ H)). destruct (set_flag f g) as [g1|stop]; [|discriminate G]. apply IH. exact G.
Qed.
Lemma option_joined o c v g : option_letter o c -> v <> [] -> short_cluster (c :: v) g = after (set_option o (match v with c' :: v' => if N.eqb c' 61 then v' else v | [] => v end) g).
Proof. intros H N. cbn [short_cluster]. rewrite (proj1 (option_lookup _ _ H)). destruct v as [|c' v]; [congruence|]. destruct (set_option _ _ _); reflexivity. Qed.
Lemma first_letter fs cs o c rest : Forall2 flag_letter fs cs -> option_letter o c -> exists c1 w, cs ++ c :: rest = c1 :: w /\ c1 <> c_minus.
Proof.
  intros F H. destruct F as [|f c1 fs cs Hf F]; [exists c, rest; split; [reflexivity|apply (option_lookup _ _ H)]|]. exists c1, (cs ++ c :: rest). split; [reflexivity|apply (flag_lookup _ _ Hf)].
Qed.

(** ** What is written is read *)
Lemma written_read ss words : spells ss words -> forall g g', give ss g = Some g' -> parse_words words None g = Accepted (finish_args g').
Proof.
  assert (Gv : forall o v ss g g', give (Choice o v :: ss) g = Some g' -> exists g1, set_option o v g = inl g1 /\ give ss g1 = Some g').
  { intros o v ss0 g g' G. cbn [give put_setting] in G. destruct (set_option o v g) as [g1|]; [|discriminate G]. exists g1. auto. }
  assert (Ga : forall fs ss g g', give (map Switch fs ++ ss) g = Some g' -> exists g1, give (map Switch fs) g = Some g1 /\ give ss g1 = Some g').
  { intros fs ss0 g g' G. rewrite give_app in G. destruct (give (map Switch fs) g) as [g1|]; [|discriminate G]. exists g1. auto. }
  induction 1 as [| |f ss words S IH|o v ss words S IH|o v ss words P S IH|fs cs ss words F N S IH|fs cs o c v ss words F H N1 N2 S IH|fs cs o c v ss words F H S IH|fs cs o c v ss words F H P S IH]; intros g g' G.
  - injection G as <-. reflexivity.
  - injection G as <-. reflexivity.
  - cbn [give put_setting] in G. destruct (set_flag f g) as [g1|] eqn:E; [|discriminate G]. destruct (long_flag f) as (w & -> & Nw & L). rewrite long_step by exact Nw. rewrite L, E. cbn [after]. apply IH. exact G.
  - destruct (Gv _ _ _ _ _ G) as (g1 & E & G1). destruct (long_option o) as (w & -> & Nw & _ & L). cbn [app].
    assert (Nw' : w ++ lit "=" ++ v <> []) by (destruct w; discriminate). rewrite (long_step (w ++ lit "=" ++ v) words g Nw'). rewrite L, E. cbn [after]. apply IH. exact G1.
  - destruct (Gv _ _ _ _ _ G) as (g1 & E & G1). destruct (long_option o) as (w & -> & Nw & L & _). rewrite long_step by exact Nw. rewrite L. rewrite value_step by exact P. rewrite E. apply IH. exact G1.
  - destruct (Ga _ _ _ _ G) as (g1 & E & G1). destruct F as [|f c fs cs Hf F]; [congruence|]. rewrite short_step by apply (flag_lookup _ _ Hf).
    pose proof (cluster_flags (f :: fs) (c :: cs) [] (Forall2_cons _ _ Hf F) _ _ E) as X. rewrite app_nil_r in X. rewrite X. cbn [short_cluster]. apply IH. exact G1.
  - destruct (Ga _ _ _ _ G) as (g1 & E & G1). destruct (Gv _ _ _ _ _ G1) as (g2 & E2 & G2). destruct (first_letter fs cs o c v F H) as (c1 & w & Ew & Hc). rewrite Ew, short_step by exact Hc. rewrite <- Ew.
    rewrite (cluster_flags _ _ _ F _ _ E). rewrite (option_joined _ _ _ _ H N1). destruct v as [|c' v']; [congruence|].
    destruct (N.eqb_spec c' 61) as [-> |_]; [destruct (N2 v' eq_refl)|]. rewrite E2. cbn [after]. apply IH. exact G2.
  - destruct (Ga _ _ _ _ G) as (g1 & E & G1). destruct (Gv _ _ _ _ _ G1) as (g2 & E2 & G2). destruct (first_letter fs cs o c (lit "=" ++ v) F H) as (c1 & w & Ew & Hc). rewrite Ew, short_step by exact Hc. rewrite <- Ew.
    rewrite (cluster_flags _ _ _ F _ _ E). 
    assert (X : short_cluster (c :: lit "=" ++ v) g1 = after (set_option o v g1)) by (apply (option_joined o c (lit "=" ++ v) g1 H); discriminate). rewrite X. rewrite E2. cbn [after]. apply IH. exact G2.
  - destruct (Ga _ _ _ _ G) as (g1 & E & G1). destruct (Gv _ _ _ _ _ G1) as (g2 & E2 & G2). destruct (first_letter fs cs o c [] F H) as (c1 & w & Ew & Hc). rewrite Ew, short_step by exact Hc. rewrite <- Ew.
    rewrite (cluster_flags _ _ _ F _ _ E). cbn [short_cluster]. rewrite (proj1 (option_lookup _ _ H)). rewrite value_step by exact P. rewrite E2. apply IH. exact G2.
Qed.

(** ** What is read was written *)
Lemma look_up_in table s n : look_up table s = Some n -> In (s, n) table.
Proof.
  induction table as [|[name m] table IH]; cbn [look_up]; [discriminate|]. destruct (str_eqb s name) eqn:E; [|intros H; right; apply IH; exact H].
  intros H. injection H as <-. apply str_eqb_eq in E as ->. left. reflexivity.
Qed.
Lemma long_known s n : look_up long_names s = Some n -> c_minus :: c_minus :: s = match n with NOption o => option_name o | NFlag f => flag_name f end.
Proof.
  intros H. apply look_up_in in H. unfold long_names in H. cbn [In] in H.
  repeat (destruct H as [H|H]; [apply pair_equal_spec in H as [<- <-]; reflexivity|]). destruct H.
Qed.
Lemma short_known c n : look_up short_names [c] = Some n -> match n with NOption o => option_letter o c | NFlag f => flag_letter f c end.
Proof.
  intros H. apply look_up_in in H. unfold short_names in H. cbn [In] in H.
  repeat (destruct H as [H|H]; [apply pair_equal_spec in H as [H <-]; symmetry in H; exact H|]). destruct H.
Qed.
Lemma split_equals_spec s : forall name v, split_equals s = (name, v) -> s = name ++ match v with Some t => lit "=" ++ t | None => [] end.
Proof.
  induction s as [|c s IH]; intros name v E; cbn [split_equals] in E; [injection E as <- <-; reflexivity|].
  destruct (N.eqb_spec c 61) as [-> |_]; [injection E as <- <-; reflexivity|]. destruct (split_equals s) as [n0 v0]. injection E as <- <-. cbn [app]. f_equal. apply IH. reflexivity.
Qed.
Lemma cluster_read letters : forall g g' w', short_cluster letters g = inl (g', w') ->
  exists fs cs, Forall2 flag_letter fs cs /\
    (letters = cs /\ w' = None /\ give (map Switch fs) g = Some g' \/
     exists o c, option_letter o c /\
       (letters = cs ++ [c] /\ w' = Some o /\ give (map Switch fs) g = Some g' \/
        w' = None /\ exists v, give (map Switch fs ++ [Choice o v]) g = Some g' /\
          (letters = cs ++ c :: v /\ v <> [] /\ (forall v', v <> lit "=" ++ v') \/ letters = cs ++ c :: lit "=" ++ v))).
Proof.
  induction letters as [|c rest IH]; intros g g' w' E; cbn [short_cluster] in E.
  - injection E as <- <-. exists [], []. split; [constructor|]. left. auto.
  - destruct (look_up short_names [c]) as [[o|f]|] eqn:L; [| |discriminate E]; apply short_known in L.
    + exists [], []. split; [constructor|]. right. exists o, c. split; [exact L|]. destruct rest as [|c' v].
      * injection E as <- <-. left. auto.
      * right. destruct (N.eqb_spec c' 61) as [-> |Hc].
        -- destruct (set_option o v g) as [g1|] eqn:S; [|discriminate E]. injection E as <- <-. split; [reflexivity|]. exists v. split; [cbn [map app give put_setting]; rewrite S; reflexivity|]. right. reflexivity.
        -- destruct (set_option o (c' :: v) g) as [g1|] eqn:S; [|discriminate E]. injection E as <- <-. split; [reflexivity|]. exists (c' :: v). split; [cbn [map app give put_setting]; rewrite S; reflexivity|]. left.
           split; [reflexivity|]. split; [discriminate|]. intros v' X. injection X as X _. exact (Hc X).
    + destruct (set_flag f g) as [g1|] eqn:S; [|discriminate E]. destruct (IH _ _ _ E) as (fs & cs & F & K). exists (f :: fs), (c :: cs). split; [constructor; assumption|].
      cbn [map app give put_setting]. rewrite S. destruct K as [(-> & -> & K)|(o & c0 & Ho & [(-> & -> & K)|(-> & v & K & Kl)])].
      * left. auto.
      * right. exists o, c0. split; [exact Ho|]. left. auto.
      * right. exists o, c0. split; [exact Ho|]. right. split; [reflexivity|]. exists v. split; [exact K|]. destruct Kl as [(-> & K1 & K2)| ->]; [left|right]; auto.
Qed.
Lemma value_read words o g r : parse_words words (Some o) g = Accepted r ->
  exists v words' g1, words = v :: words' /\ ordinary v /\ set_option o v g = inl g1 /\ parse_words words' None g1 = Accepted r.
Proof.
  destruct words as [|v words]; [discriminate|]. intros E.
  assert (K : ordinary v -> exists g1, set_option o v g = inl g1 /\ parse_words words None g1 = Accepted r).
  { intros P. rewrite (value_step _ _ _ _ P) in E. destruct (set_option o v g) as [g1|stop] eqn:S; [exists g1; auto|]. subst stop. exfalso.
    destruct o; cbn [set_option] in S; [destruct (v_radix g), (read_u8 2 16 v)|destruct (v_input g)|destruct (v_convert g), (read_u8 1 16 v)|destruct (v_precision g), (read_u8 0 255 v)|destruct (v_extra g), (read_u8 0 255 v)]; discriminate S. }
  assert (P : ordinary v).
  { destruct v as [|c v]; [right; discriminate|]. cbn [parse_words] in E. destruct (N.eqb_spec c c_minus) as [-> |Hc]; [|right; intros c' v' X; injection X as <- <-; exact Hc].
    destruct v as [|c' v]; [left; reflexivity|]. exfalso. destruct (N.eqb c' c_minus); [destruct v; discriminate E|discriminate E]. }
  destruct (K P) as (g1 & S & Pa). exists v, words, g1. auto.
Qed.
Lemma read_written n : forall words g o, List.length words <= n -> parse_words words None g = Accepted o -> exists ss g', spells ss words /\ give ss g = Some g' /\ o = finish_args g'.
Proof.
  induction n as [|n IH]; intros words g o L E.
  - destruct words; [|cbn in L; lia]. injection E as <-. exists [], g. split; [constructor|]. split; reflexivity.
  - destruct words as [|word rest]; [injection E as <-; exists [], g; split; [constructor|]; split; reflexivity|]. cbn [List.length] in L.
    destruct word as [|c word]; [discriminate E|]. destruct (N.eqb_spec c c_minus) as [-> |Hc].
    2:{ exfalso. cbn [parse_words] in E. destruct (N.eqb_spec c c_minus); [congruence|discriminate E]. }
    destruct word as [|c word]; [discriminate E|]. destruct (N.eqb_spec c c_minus) as [-> |Hc].
    + destruct word as [|c word].
      { destruct rest; [|discriminate E]. injection E as <-. exists [], g. split; [apply sp_end|]. split; reflexivity. }
      set (w := c :: word) in *. rewrite long_step in E by discriminate. unfold long_word in E. destruct (split_equals w) as [name v] eqn:Sp. apply split_equals_spec in Sp.
      destruct (look_up long_names name) as [[op|f]|] eqn:Lk; [| |discriminate E]; apply long_known in Lk.
      * destruct v as [v|].
        -- destruct (set_option op v g) as [g1|stop] eqn:S.
           ++ destruct (IH rest g1 o ltac:(lia) E) as (ss & g' & Sp' & G & ->). exists (Choice op v :: ss), g'. split; [|split; [cbn [give put_setting]; rewrite S; exact G|reflexivity]].
              rewrite Sp, !app_comm_cons, Lk. apply sp_equals. exact Sp'.
           ++ subst stop. exfalso. destruct op; cbn [set_option] in S; [destruct (v_radix g), (read_u8 2 16 v)|destruct (v_input g)|destruct (v_convert g), (read_u8 1 16 v)|destruct (v_precision g), (read_u8 0 255 v)|destruct (v_extra g), (read_u8 0 255 v)]; discriminate S.
        -- destruct (value_read _ _ _ _ E) as (v & words' & g1 & -> & P & S & Pa). cbn [List.length] in L. destruct (IH words' g1 o ltac:(lia) Pa) as (ss & g' & Sp' & G & ->).
           exists (Choice op v :: ss), g'. split; [|split; [cbn [give put_setting]; rewrite S; exact G|reflexivity]]. rewrite app_nil_r in Sp. rewrite Sp, Lk. apply sp_apart; assumption.
      * destruct v as [v|]; [discriminate E|]. destruct (set_flag f g) as [g1|stop] eqn:S.
        -- destruct (IH rest g1 o ltac:(lia) E) as (ss & g' & Sp' & G & ->). exists (Switch f :: ss), g'. split; [|split; [cbn [give put_setting]; rewrite S; exact G|reflexivity]].
           rewrite app_nil_r in Sp. rewrite Sp, Lk. apply sp_flag. exact Sp'.
        -- subst stop. exfalso. destruct f; cbn [set_flag] in S; try discriminate S; match type of S with (if ?b then _ else _) = _ => destruct b end; discriminate S.
    + assert (E' := eq_trans (eq_sym (short_step c word rest g Hc)) E). clear E. rename E' into E. destruct (short_cluster (c :: word) g) as [[g1 w']|stop] eqn:Cl.
      2:{ subst stop. exfalso. clear - Cl. revert g Cl. induction (c :: word) as [|d letters IHl]; intros g Cl; cbn [short_cluster] in Cl; [discriminate Cl|].
          destruct (look_up short_names [d]) as [[op|f]|]; [| |discriminate Cl].
          - destruct letters as [|d' v]; [discriminate Cl|]. destruct (set_option op _ g) as [g1|stop] eqn:S; [discriminate Cl|]. injection Cl as ->.
            exact (option_stops _ _ _ _ S).
          - destruct (set_flag f g) as [g1|stop] eqn:S; [exact (IHl _ Cl)|]. injection Cl as ->. destruct f; cbn [set_flag] in S; try discriminate S; match type of S with (if ?b then _ else _) = _ => destruct b end; discriminate S. }
      destruct (cluster_read _ _ _ _ Cl) as (fs & cs & F & K). destruct K as [(Ec & -> & K)|(op & c0 & Ho & [(Ec & -> & K)|(-> & v & K & Kl)])].
      * destruct (IH rest g1 o ltac:(lia) E) as (ss & g' & Sp' & G & ->). exists (map Switch fs ++ ss), g'. split; [|split; [rewrite give_app, K; exact G|reflexivity]].
        rewrite Ec. apply sp_letters; [exact F| |exact Sp']. intros ->. rewrite <- Ec in F. inversion F.
      * destruct (value_read _ _ _ _ E) as (v & words' & g2 & -> & P & S & Pa). cbn [List.length] in L. destruct (IH words' g2 o ltac:(lia) Pa) as (ss & g' & Sp' & G & ->).
        exists (map Switch fs ++ Choice op v :: ss), g'. split; [|split; [rewrite give_app, K; cbn [give put_setting]; rewrite S; exact G|reflexivity]]. rewrite Ec. apply sp_letters_apart; assumption.
      * destruct (IH rest g1 o ltac:(lia) E) as (ss & g' & Sp' & G & ->). exists (map Switch fs ++ Choice op v :: ss), g'.
        split; [|split; [change (Choice op v :: ss) with ([Choice op v] ++ ss); rewrite app_assoc, give_app, K; exact G|reflexivity]].
        destruct Kl as [(Ec & K1 & K2)|Ec]; rewrite Ec; [apply sp_letters_joined; assumption|apply sp_letters_equals; assumption].
Qed.
