(** ProofsSize.v -- answers are no longer than what was typed. *)
From Verif Require Import Base Position Num TokenTypes Errors SavedData Variables Operations Token SyntaxTree.
From Verif Require Import SpecLex SpecGrammar SpecEval SpecPrint SpecSize ProofsNum ProofsLex ProofsPrint ProofsPrint2.
From Coq Require Import Qabs Qpower String Lqa Lia ZArith Znumtheory.
Local Open Scope list_scope.

(** * Fitting *)
Lemma fits_any B v n d : (v == n # d)%Q -> (Z.abs n < B)%Z -> (Zpos d < B)%Z -> fits B v.
Proof.
  intros E Hn Hd. pose proof (Qred_correct (n # d)) as R. destruct (Qred (n # d)) as [n' d'] eqn:Q. exists n', d'.
  assert (G : Z.gcd n' (Zpos d') = 1%Z).
  { apply (proj1 (canon_gcd (n' # d'))). unfold canon. rewrite <- Q. apply Qred_complete, Qred_correct. }
  split; [rewrite E, R; reflexivity|]. split; [exact G|].
  unfold Qeq in R. cbn [Qnum Qden] in R.
  assert (Dv : (Zpos d' | Zpos d)).
  { apply (Z.gauss _ n'); [exists n; lia|]. rewrite Z.gcd_comm. exact G. }
  destruct Dv as [k K]. assert (0 < k)%Z by nia. assert (n = n' * k)%Z by nia. subst n. rewrite Z.abs_mul in Hn. split; nia.
Qed.
Lemma fits_le B C v : (B <= C)%Z -> fits B v -> fits C v.
Proof. intros H (n & d & E & G & N & D). exists n, d. repeat split; try assumption; lia. Qed.
Lemma fits_eq B v w : (v == w)%Q -> fits B v -> fits B w.
Proof. intros H (n & d & E & R). exists n, d. split; [rewrite <- H; exact E|exact R]. Qed.
Lemma fits_opp B v : fits B v -> fits B (- v)%Q.
Proof. intros (n & d & E & G & N & D). apply (fits_any B _ (- n) d); [rewrite E; reflexivity|lia|exact D]. Qed.
Lemma fits_abs B v : fits B v -> fits B (Qabs v).
Proof. intros (n & d & E & G & N & D). apply (fits_any B _ (Z.abs n) d); [rewrite E; reflexivity|lia|exact D]. Qed.
Lemma fits_add A B x y : fits A x -> fits B y -> fits (2 * A * B) (x + y)%Q.
Proof.
  intros (a & b & E & _ & Ha & Hb) (c & d & E' & _ & Hc & Hd). apply (fits_any _ _ (a * Zpos d + c * Zpos b) (b * d)).
  - rewrite E, E'. reflexivity.
  - pose proof (Z.abs_triangle (a * Zpos d) (c * Zpos b)). rewrite !Z.abs_mul in H. cbn [Z.abs] in H. nia.
  - nia.
Qed.
Lemma fits_mul A B x y : fits A x -> fits B y -> fits (A * B) (x * y)%Q.
Proof.
  intros (a & b & E & _ & Ha & Hb) (c & d & E' & _ & Hc & Hd). apply (fits_any _ _ (a * c) (b * d)).
  - rewrite E, E'. reflexivity.
  - rewrite Z.abs_mul. nia.
  - nia.
Qed.
Lemma fits_inv B y : ~ (y == 0)%Q -> fits B y -> fits B (/ y)%Q.
Proof.
  intros Z (c & d & E & _ & Hc & Hd). assert (c <> 0)%Z by (intros ->; apply Z; rewrite E; reflexivity).
  apply (fits_any _ _ (Z.sgn c * Zpos d) (Z.to_pos (Z.abs c))).
  - rewrite E. destruct c as [|c|c]; [lia|reflexivity|reflexivity].
  - destruct c; lia.
  - lia.
Qed.
Lemma fits_remainder A B x y r : remainder x y r -> fits A x -> fits B y -> fits (A * B) r.
Proof.
  intros ((k & Ek) & Hs & _) (a & b & E & _ & Ha & Hb) (c & d & E' & _ & Hc & Hd).
  assert (R : (r == (a * Zpos d - k * c * Zpos b) # (b * d))%Q).
  { assert (R0 : (r == x - inject_Z k * y)%Q) by (rewrite Ek; ring). rewrite R0, E, E'.
    unfold Qeq, Qminus, Qplus, Qopp, Qmult, inject_Z; cbn [Qnum Qden]. rewrite !Pos2Z.inj_mul. ring. }
  apply (fits_any _ _ _ _ R).
  - rewrite R, E' in Hs. unfold Qlt, Qabs in Hs. cbn [Qnum Qden] in Hs. rewrite Pos2Z.inj_mul in Hs.
    set (W := Z.abs (a * Zpos d - k * c * Zpos b)) in *. assert (W < Z.abs c * Zpos b)%Z by nia. nia.
  - nia.
Qed.

(** * Numerals *)
Lemma digits_small radix s ds : digits_of radix s ds -> List.length ds = List.length s /\ Forall (fun d => (d < radix)%N) ds.
Proof. induction 1 as [|c d s ds [_ H] _ [L F]]; [auto|]. cbn [List.length]. split; [lia|constructor; assumption]. Qed.
Lemma int_value_small radix ds : (2 <= radix)%N -> Forall (fun d => (d < radix)%N) ds -> (0 <= int_value radix ds < Z.of_N radix ^ Z.of_nat (List.length ds))%Z.
Proof. intros Hr F. split; [apply int_value_nonneg|]. apply int_value_bounds; assumption. Qed.
Lemma pow_ge radix a b : (2 <= radix)%N -> (a <= b)%nat -> (Z.of_N radix ^ Z.of_nat a <= Z.of_N radix ^ Z.of_nat b)%Z.
Proof. intros. apply Z.pow_le_mono_r; lia. Qed.
Lemma pow_gt radix a b : (2 <= radix)%N -> (a < b)%nat -> (Z.of_N radix ^ Z.of_nat a < Z.of_N radix ^ Z.of_nat b)%Z.
Proof. intros. apply Z.pow_lt_mono_r; lia. Qed.
Lemma pow_add radix a b : (Z.of_N radix ^ Z.of_nat (a + b) = Z.of_N radix ^ Z.of_nat a * Z.of_N radix ^ Z.of_nat b)%Z.
Proof. rewrite Nat2Z.inj_add, Z.pow_add_r by lia. reflexivity. Qed.
Lemma numeral_fits radix w v : (2 <= radix)%N -> numeral radix w v -> digits_at_most radix (List.length w) v.
Proof.
  intros Hr (_ & H). unfold digits_at_most. assert (U : (List.length (no_underscores w) <= List.length w)%nat).
  { unfold no_underscores. clear. induction w as [|c w IH]; [apply le_n|]. cbn [filter]. destruct (negb (N.eqb c 95)); cbn [List.length]; [apply le_n_S; exact IH|apply le_S; exact IH]. }
  assert (P : (1 <= Z.of_N radix)%Z) by lia.
  destruct H as [(ds & N & D & E)|(ip & fp & ids & fds & S & DI & DF & N & E)].
  - destruct (digits_small _ _ _ D) as [L F]. pose proof (int_value_small radix ds Hr F) as V.
    apply (fits_le (Z.of_N radix ^ Z.of_nat (List.length ds))); [apply pow_ge; [exact Hr|rewrite L; exact U]|].
    apply (fits_any _ _ (int_value radix ds) 1); [exact E|rewrite Z.abs_eq; apply V|]. destruct ds as [|d ds]; [congruence|].
    apply (pow_gt radix 0); [exact Hr|cbn [List.length]; lia].
  - destruct (digits_small _ _ _ DI) as [LI FI]. destruct (digits_small _ _ _ DF) as [LF FF].
    pose proof (int_value_small radix (ids ++ fds) Hr (proj2 (Forall_app _ _ _) (conj FI FF))) as V. rewrite app_length in V.
    assert (LW : (List.length ids + List.length fds + 1 <= List.length w)%nat).
    { rewrite S in U. rewrite !app_length in U. change (List.length (lit ".")) with 1%nat in U. lia. }
    apply (fits_le (Z.of_N radix ^ Z.of_nat (List.length ids + List.length fds + 1))); [apply pow_ge; lia|].
    assert (G : (0 < Z.of_N radix ^ Z.of_nat (List.length fds))%Z) by (apply Z.pow_pos_nonneg; lia).
    assert (T : Zpos (Z.to_pos (Z.of_N radix ^ Z.of_nat (List.length fds))) = (Z.of_N radix ^ Z.of_nat (List.length fds))%Z) by (apply Z2Pos.id; exact G).
    apply (fits_any _ _ (int_value radix (ids ++ fds)) (Z.to_pos (Z.of_N radix ^ Z.of_nat (List.length fds)))).
    + rewrite E, (ProofsLex.frac_value_int radix fds) by lia. rewrite int_value_app.
      rewrite Qmake_Qdiv, T, inject_Z_plus, inject_Z_mult. field.
      unfold Qeq, inject_Z; cbn [Qnum Qden]. lia.
    + rewrite Z.abs_eq by apply V. eapply Z.lt_le_trans; [apply V|]. apply pow_ge; lia.
    + rewrite T. apply pow_gt; lia.
Qed.

(** * Tokens *)
Section Size.
  Context (radix : N) (Hr : (2 <= radix)%N) (D : nat).
  Definition tsize (t : ptoken) : nat := p_width (pd_pos t) + match pd_value t with TVariable _ => D | _ => 0 end.
  Definition size (ts : list ptoken) : nat := list_sum (map tsize ts).
  Definition token_ok (t : ptoken) : Prop :=
    (1 <= p_width (pd_pos t))%nat /\ forall v, pd_value t = TNumber v -> digits_at_most radix (p_width (pd_pos t)) v.
  Lemma size_app a b : size (a ++ b) = (size a + size b)%nat.
  Proof. unfold size. rewrite map_app, list_sum_app. reflexivity. Qed.
  Lemma size_cons t b : size (t :: b) = (tsize t + size b)%nat.
  Proof. reflexivity. Qed.

  Lemma reading_size o s ts : reading radix o s ts -> (size ts <= List.length s + D * namings ts)%nat /\ Forall token_ok ts.
  Proof.
    induction 1 as [o|o c s ts B R [IH F]|o c t s ts P R [IH F]|o w t s ts N W En T R [IH F]].
    - split; [cbn; lia|constructor].
    - split; [cbn [List.length]; lia|exact F].
    - assert (T : forall v, t <> TNumber v) by (intros v ->; cbn in P; repeat (destruct P as [P|P]; [discriminate|]); destruct P).
      assert (T2 : forall x, t <> TVariable x) by (intros v ->; cbn in P; repeat (destruct P as [P|P]; [discriminate|]); destruct P).
      split.
      + rewrite size_cons. unfold namings, tsize. cbn [filter pd_value pd_pos p_width List.length]. unfold namings in IH. destruct t; cbn [List.length]; lia.
      + constructor; [|exact F]. split; [cbn; lia|]. intros v E. destruct (T v E).
    - split.
      + rewrite size_cons, app_length. unfold namings, tsize. cbn [filter pd_value pd_pos p_width]. unfold namings in IH. destruct t; cbn [List.length]; lia.
      + constructor; [|exact F]. split; [destruct w; [congruence|cbn; lia]|]. cbn [pd_value pd_pos p_width]. intros v E. subst t. inversion T as [| ? ? I|? ? I Nu]; subst.
        * cbn in I. repeat (destruct I as [I|I]; [discriminate|]). destruct I.
        * apply numeral_fits; assumption.
  Qed.

  (** * Values *)
  Context (lookup : str -> position -> result -> Prop) (power : position -> Q -> Q -> result -> Prop).
  Definition named_fit (ts : list ptoken) : Prop :=
    forall x p v, In (tk (TVariable x) p) ts -> lookup x p (Value v) -> digits_at_most radix D v.
  Definition calm_tokens (ts : list ptoken) : Prop := Forall token_ok ts /\ free_of_powers ts /\ named_fit ts.
  Lemma calm_app a b : calm_tokens (a ++ b) <-> calm_tokens a /\ calm_tokens b.
  Proof.
    unfold calm_tokens. rewrite Forall_app. unfold free_of_powers, named_fit. split.
    - intros ((A & B) & C & E). split; (split; [assumption|split]); intros; first [apply C; apply in_or_app; auto|eapply E; [apply in_or_app|]; eauto].
    - intros ((A & C & E) & B & C' & E'). split; [auto|]. split; intros; [apply in_app_or in H as [H|H]; auto|apply in_app_or in H as [H|H]; eauto].
  Qed.
  Lemma calm_cons t b : calm_tokens (t :: b) <-> calm_tokens [t] /\ calm_tokens b.
  Proof. apply (calm_app [t] b). Qed.
  Lemma fit_more a b v : (a <= b)%nat -> digits_at_most radix a v -> digits_at_most radix b v.
  Proof. intros H. apply fits_le, pow_ge; assumption. Qed.
  Lemma fit_two a b k v : (1 <= k)%nat -> fits (2 * (Z.of_N radix ^ Z.of_nat a) * (Z.of_N radix ^ Z.of_nat b)) v -> digits_at_most radix (a + (k + b)) v.
  Proof.
    intros Hk. apply fits_le. rewrite pow_add, pow_add. pose proof (pow_ge radix 1 k Hr Hk) as G. change (Z.of_nat 1) with 1%Z in G. rewrite Z.pow_1_r in G.
    assert (2 <= Z.of_N radix ^ Z.of_nat k)%Z by lia.
    assert (0 < Z.of_N radix ^ Z.of_nat a)%Z by (apply Z.pow_pos_nonneg; lia). assert (0 < Z.of_N radix ^ Z.of_nat b)%Z by (apply Z.pow_pos_nonneg; lia). nia.
  Qed.
  Lemma fit_one a b k v : fits ((Z.of_N radix ^ Z.of_nat a) * (Z.of_N radix ^ Z.of_nat b)) v -> digits_at_most radix (a + (k + b)) v.
  Proof. rewrite <- pow_add. apply fits_le. apply pow_ge; lia. Qed.

  Lemma derives_fit :
    (forall k ts n, derives k ts n -> calm_tokens ts -> forall v, meaning lookup power n (Value v) -> digits_at_most radix (size ts) v) /\
    (forall ts ns, derives_args ts ns -> calm_tokens ts -> forall vs, meanings lookup power ns vs -> forall v, In v vs -> digits_at_most radix (size ts) v) /\
    (forall ts ns, derives_list ts ns -> calm_tokens ts -> forall vs, meanings lookup power ns vs -> forall v, In v vs -> digits_at_most radix (size ts) v).
  Proof.
    apply derives_mutind.
    - intros v p (T & _) w M. inversion M; subst. apply Forall_inv in T as [_ T]. specialize (T v eq_refl). eapply fits_eq; [symmetry; eassumption|].
      apply (fit_more (p_width p)); [|exact T]. rewrite size_cons; unfold tsize; cbn [pd_pos pd_value]; lia.
    - intros x p (_ & _ & T) w M. inversion M; subst. apply (fit_more D); [rewrite size_cons; unfold tsize; cbn [pd_pos pd_value]; lia|]. eapply T; [left; reflexivity|eassumption].
    - intros o p ts n _ IH C w M. apply calm_cons in C as [C0 C]. inversion M as [| | |? ? ? x ? Mn U|? ? ? ? Mn St| | | | | |]; subst; [|destruct St].
      specialize (IH C x Mn). apply (fit_more (size ts)); [rewrite size_cons; lia|]. inversion U; subst.
      + eapply fits_eq; [symmetry; eassumption|]. apply fits_opp, IH.
      + eapply fits_eq; [symmetry; eassumption|]. apply fits_abs, IH.
      + destruct C0 as (_ & Fr & _). destruct (Fr _ (or_introl eq_refl)) as [_ X]. destruct (X eq_refl).
    - intros p q ts n _ IH C w M. apply calm_cons in C as [_ C]. apply calm_app in C as [C _]. inversion M; subst.
      apply (fit_more (size ts)); [rewrite size_cons, size_app; lia|]. apply IH; assumption.
    - intros f p ts n _ IH _ C w M. apply calm_cons in C as [_ C]. apply (fit_more (size ts)); [rewrite size_cons; lia|].
      inversion M as [| | | | | | | |? ? ? ? qs ? Ms X| |? ? ? ? ? Fs]; subst.
      + destruct X as ((v & I & E) & _). inversion Ms as [|? ? ? ? M1 M2]; subst. inversion M2; subst. destruct I as [<-|[]]. eapply fits_eq; [symmetry; exact E|]. apply IH; assumption.
      + exfalso. inversion Fs as [? ? ? ? St|? ? ? ? ? Fs']; subst; [destruct St|inversion Fs'].
    - intros f p o c ts ns _ IH C w M. apply calm_cons in C as [_ C]. apply calm_cons in C as [_ C]. apply calm_app in C as [C _].
      apply (fit_more (size ts)); [rewrite !size_cons, size_app; lia|].
      inversion M as [| | | | | | | |? ? ? ? qs ? Ms X| |? ? ? ? ? Fs]; subst.
      + destruct X as ((v & I & E) & _). eapply fits_eq; [symmetry; exact E|]. eapply IH; eauto.
      + exfalso. clear -Fs. remember (Value w) as r. induction Fs as [? ? ? ? St|]; subst; auto.
    - intros p ts n _ IH C w M. apply calm_cons in C as [C0 C]. inversion M as [| | |? ? ? x ? Mn U|? ? ? ? Mn St| | | | | |]; subst; [|destruct St].
      specialize (IH C x Mn). apply (fit_more (size ts)); [rewrite size_cons; lia|]. inversion U; subst. eapply fits_eq; [symmetry; eassumption|]. apply fits_opp, IH.
    - intros k o p ts1 ts2 a b _ _ IHa _ IHb C w M. apply calm_app in C as [C1 C]. apply calm_cons in C as [C0 C2].
      rewrite size_app, size_cons. assert (K : (1 <= tsize (tk (TBin o) p))%nat). { destruct C0 as (T & _). apply Forall_inv in T as [T _]. unfold tsize. cbn in *. lia. }
      inversion M as [| | | | |? ? ? ? x y ? Ma Mb B|? ? ? ? ? ? St|? ? ? ? ? ? ? ? St| | |]; subst; try destruct St.
      specialize (IHa C1 x Ma). specialize (IHb C2 y Mb). unfold digits_at_most in IHa, IHb. inversion B; subst.
      + apply fit_two; [exact K|]. eapply fits_eq; [symmetry; eassumption|]. apply fits_add; assumption.
      + apply fit_two; [exact K|]. eapply fits_eq; [symmetry; eassumption|]. apply fits_add; [assumption|apply fits_opp; assumption].
      + apply fit_one. eapply fits_eq; [symmetry; eassumption|]. apply fits_mul; assumption.
      + apply fit_one. assert (E : (w == x * / y)%Q) by (match goal with H : (w * y == x)%Q |- _ => rewrite <- H end; field; assumption).
        eapply fits_eq; [symmetry; exact E|]. apply fits_mul; [assumption|apply fits_inv; assumption].
      + apply fit_one. eapply fits_remainder; eassumption.
      + destruct C0 as (_ & Fr & _). destruct (Fr _ (or_introl eq_refl)) as [X _]. destruct (X eq_refl).
    - intros k ts n _ IH C w M. apply IH; assumption.
    - intros C vs M v I. inversion M; subst. destruct I.
    - intros ts ns _ IH C vs M v I. eapply IH; eauto.
    - intros ts n _ IH C vs M v I. inversion M as [|? ? ? ? M1 M2]; subst. inversion M2; subst. destruct I as [<-|[]]. apply IH; assumption.
    - intros ts p ts' n ns _ IH _ IHs C vs M v I. apply calm_app in C as [C1 C]. apply calm_cons in C as [_ C2]. rewrite size_app, size_cons.
      inversion M as [|? ? ? ? M1 M2]; subst. destruct I as [<-|I].
      + apply (fit_more (size ts)); [lia|]. apply IH; assumption.
      + apply (fit_more (size ts')); [lia|]. eapply IHs; eauto.
  Qed.
End Size.

(** * Texts *)
Lemma leading out ids : (2 <= out)%N -> ids <> [] -> (forall ds, ids = 0%N :: ds -> ds = []) ->
  List.length ids = 1%nat \/ (Z.of_N out ^ Z.of_nat (List.length ids - 1) <= int_value out ids)%Z.
Proof.
  intros Ho N Z. destruct ids as [|d ds]; [congruence|]. destruct (N.eq_dec d 0) as [->|Hd].
  - left. rewrite (Z ds eq_refl). reflexivity.
  - right. cbn [int_value List.length]. replace (S (List.length ds) - 1)%nat with (List.length ds) by lia.
    pose proof (int_value_nonneg out ds). assert (0 < Z.of_N out ^ Z.of_nat (List.length ds))%Z by (apply Z.pow_pos_nonneg; lia). nia.
Qed.
Lemma short out ids k : (2 <= out)%N -> (1 <= k)%nat -> ids <> [] -> (forall ds, ids = 0%N :: ds -> ds = []) ->
  (int_value out ids < Z.of_N out ^ Z.of_nat k)%Z -> (List.length ids <= k)%nat.
Proof.
  intros Ho Hk N Z L. destruct (leading out ids Ho N Z) as [E|E]; [lia|].
  assert (P : (Z.of_N out ^ Z.of_nat (List.length ids - 1) < Z.of_N out ^ Z.of_nat k)%Z) by lia.
  apply Z.pow_lt_mono_r_iff in P; lia.
Qed.
Lemma sign_length (neg : bool) : (List.length (if neg then lit "-" else []) <= 1)%nat.
Proof. destruct neg; cbn; lia. Qed.
Lemma spell_length up ds : List.length (spell up ds) = List.length ds.
Proof. apply map_length. Qed.
Lemma integer_text_length out z s k : (2 <= out)%N -> (1 <= k)%nat -> (Z.abs z < Z.of_N out ^ Z.of_nat k)%Z -> integer_text out z s ->
  (List.length s <= k + if Z.ltb z 0 then 1 else 0)%nat.
Proof.
  intros Ho Hk Hz (neg & ids & (-> & F & N & L) & Hn & E). rewrite app_nil_r, app_length, spell_length.
  pose proof (int_value_nonneg out ids) as P.
  assert (S : (List.length ids <= k)%nat). { apply (short out); auto. destruct neg; subst z; lia. }
  destruct neg.
  - destruct (Z.ltb_spec z 0) as [W|W]; [change (List.length (lit "-")) with 1%nat; lia|]. pose proof (proj1 Hn eq_refl). lia.
  - cbn [List.length]. destruct (Z.ltb z 0); lia.
Qed.
Lemma fraction_length B v text k : (2 <= B)%N -> (1 <= k)%nat -> digits_at_most B k v -> (B <= 10)%N -> fraction_text 10 v text ->
  (List.length text <= 2 * k + 2)%nat.
Proof.
  intros HB Hk (n & d & E & G & Hn & Hd) H10 (n' & d' & E' & G' & T).
  assert (X : n # d = n' # d').
  { apply canon_inj; [apply canon_gcd; exact G|apply canon_gcd; exact G'|]. rewrite <- E, <- E'. reflexivity. }
  injection X as <- <-.
  assert (P : (Z.of_N B ^ Z.of_nat k <= Z.of_N 10 ^ Z.of_nat k)%Z) by (apply Z.pow_le_mono_l; lia).
  destruct T as [(_ & T)|(_ & sn & sd & Tn & Td & ->)].
  - apply (integer_text_length 10 _ _ k) in T; [|lia|exact Hk|lia]. destruct (Z.ltb n 0); lia.
  - apply (integer_text_length 10 _ _ k) in Tn; [|lia|exact Hk|lia]. apply (integer_text_length 10 _ _ k) in Td; [|lia|exact Hk|lia].
    rewrite !app_length. change (List.length (lit "/")) with 1%nat. cbn [Z.ltb Z.compare] in Td. destruct (Z.ltb n 0); lia.
Qed.
Lemma grouped_concat s gs : grouped s gs -> List.concat gs = s.
Proof. induction 1 as [g|s gs g G IH L]; [apply app_nil_r|]. rewrite concat_app, IH. cbn. rewrite app_nil_r. reflexivity. Qed.
Lemma filter_length_le {A} (f : A -> bool) l : (List.length (filter f l) <= List.length l)%nat.
Proof. induction l as [|a l IH]; cbn [filter]; [lia|]. destruct (f a); cbn [List.length]; lia. Qed.
Lemma near_bound out p v w M : (2 <= out)%N -> nearest out p v w -> (Qabs v < inject_Z M)%Q -> (0 <= v -> 0 <= w)%Q -> (v < 0 -> w <= 0)%Q -> (Qabs w <= inject_Z M)%Q.
Proof.
  intros Ho (_ & Nr) Hv Hp Hm.
  assert (RP : forall z, representable out p (inject_Z z)) by (intros z; exists (z * Z.of_N out ^ Z.of_N p)%Z; rewrite inject_Z_mult; reflexivity).
  destruct (Qlt_le_dec v 0) as [L|L].
  - rewrite (Qabs_neg w) by auto. rewrite (Qabs_neg v) in Hv by lra. destruct (Nr _ (RP (- M)%Z)) as [A _]. rewrite inject_Z_opp in A. specialize (Hm L).
    destruct (Qlt_le_dec (inject_Z M) (- w)) as [B|B]; [exfalso|exact B]. rewrite !Qabs_neg in A by lra. lra.
  - rewrite (Qabs_pos w) by auto. rewrite (Qabs_pos v) in Hv by lra. destruct (Nr _ (RP M)) as [A _]. specialize (Hp L).
    destruct (Qlt_le_dec (inject_Z M) w) as [B|B]; [exfalso|exact B]. rewrite !Qabs_pos in A by lra. lra.
Qed.
Lemma fits_abs_bound B v : fits B v -> (Qabs v < inject_Z B)%Q.
Proof.
  intros (n & d & E & _ & N & D). rewrite E. unfold Qabs, Qlt, inject_Z. cbn [Qnum Qden]. nia.
Qed.
Lemma text_length a B v text k : (2 <= B)%N -> (1 <= k)%nat -> digits_at_most B k v -> (2 <= output_radix a)%N -> result_text a v text ->
  (a_fractional a = true -> (B <= 10)%N -> (List.length text <= 2 * k + 2)%nat) /\
  (a_fractional a = false -> (B <= output_radix a)%N -> (List.length (no_commas text) <= k + N.to_nat (a_precision a) + 3)%nat).
Proof.
  intros HB Hk Hv Ho [(F & T)|(F & neg & ids & fds & groups & Fd & N & L & Sg & Nr & Fl & G & ->)]; (split; [intros F' HBo|intros F' HBo]; try congruence).
  - apply (fraction_length B v text k); assumption.
  - set (out := output_radix a) in *. apply Forall_app in Fd as [Fi Ff].
    assert (P : (Z.of_N B ^ Z.of_nat k <= Z.of_N out ^ Z.of_nat k)%Z) by (apply Z.pow_le_mono_l; lia).
    assert (V : (Qabs v < inject_Z (Z.of_N out ^ Z.of_nat k))%Q).
    { eapply Qlt_le_trans; [apply fits_abs_bound, Hv|]. rewrite <- Zle_Qle. exact P. }
    pose proof (int_value_nonneg out ids) as I0. pose proof (ProofsPrint.frac_value_int out fds Ho) as Fv.
    assert (F0 : (0 <= frac_value out fds)%Q).
    { pose proof (int_value_nonneg out fds) as I1. rewrite Zle_Qle in I1. rewrite <- Fv in I1.
      assert (0 < inject_Z (Z.of_N out ^ Z.of_nat (List.length fds)))%Q by (rewrite (Zlt_Qlt 0) || idtac; change 0%Q with (inject_Z 0); rewrite <- Zlt_Qlt; apply Z.pow_pos_nonneg; lia).
      apply (Qmult_le_r _ _ _ H). change (inject_Z 0) with 0%Q in I1. lra. }
    rewrite Zle_Qle in I0. change (inject_Z 0) with 0%Q in I0.
    assert (W : (inject_Z (int_value out ids) <= inject_Z (Z.of_N out ^ Z.of_nat k))%Q).
    { apply (near_bound out _ v _ (Z.of_N out ^ Z.of_nat k) Ho) in Nr; [|exact V| |].
      - unfold text_value in Nr. destruct neg; [rewrite Qabs_opp in Nr|]; rewrite Qabs_pos in Nr by lra; lra.
      - intros Vp. unfold text_value. destruct neg; [pose proof (proj1 Sg eq_refl); lra|lra].
      - intros Vn. unfold text_value. destruct neg; [lra|]. pose proof (proj2 Sg Vn). discriminate. }
    rewrite <- Zle_Qle in W.
    assert (LI : (List.length ids <= k + 1)%nat).
    { apply (short out); auto; [lia|]. eapply Z.le_lt_trans; [exact W|]. apply pow_gt; [exact Ho|lia]. }
    assert (LF : (List.length fds <= N.to_nat (a_precision a))%nat) by (destruct Fl as [(_ & A & _)|(_ & A)]; lia).
    unfold no_commas. rewrite !filter_app, !app_length.
    assert (S1 : (List.length (filter (fun c => negb (N.eqb c 44)) (if neg then lit "-" else [])) <= 1)%nat) by (eapply Nat.le_trans; [apply filter_length_le|apply sign_length]).
    assert (S2 : (List.length (filter (fun c => negb (N.eqb c 44)) (if a_commas a then join_commas groups else spell (a_upper a) ids)) <= List.length ids)%nat).
    { destruct (a_commas a).
      - rewrite filter_join by reflexivity. rewrite (grouped_concat _ _ G). eapply Nat.le_trans; [apply filter_length_le|]. rewrite spell_length. apply le_n.
      - eapply Nat.le_trans; [apply filter_length_le|]. rewrite spell_length. apply le_n. }
    assert (S3 : (List.length (filter (fun c => negb (N.eqb c 44)) match fds with [] => [] | _ => lit "." ++ spell (a_upper a) fds end) <= 1 + List.length fds)%nat).
    { eapply Nat.le_trans; [apply filter_length_le|]. destruct fds as [|f fds]; [cbn; lia|]. rewrite app_length, spell_length. apply le_n. }
    eapply Nat.le_trans; [apply Nat.add_le_mono; [exact S1|apply Nat.add_le_mono; [exact S2|exact S3]]|lia].
Qed.
