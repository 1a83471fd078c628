(** ProofsAccount.v -- every saved variable is accounted for by a stored line (C110). *)
From Verif Require Import Base Position Num TokenTypes Errors Token Operations SavedData Variables InputHistory
  SyntaxTree Commands Calculate Editor Sessions Main Io Together Interleave SpecLex SpecGrammar SpecEval SpecHistory SpecSyntax SpecEditor SpecCalc SpecSession SpecCommands SpecData SpecMain SpecTogether SpecInterleave SpecCalls SpecCause SpecAccount.
From Verif Require Import ProofsNum ProofsLex ProofsLex2 ProofsEval ProofsDb ProofsDb2 ProofsDb4 ProofsDb5 ProofsIo ProofsEditor4 ProofsCalc ProofsCalc2 ProofsCalc3 ProofsCalc4 ProofsCalc5 ProofsCalc8 ProofsCalc9 ProofsCalm ProofsCommands ProofsCommands2 ProofsData ProofsMain ProofsTogether ProofsMain2 ProofsCalc6 ProofsCalc7 ProofsCalc10 ProofsCalm2 ProofsInterleave ProofsInterleave2 ProofsInterleave3 ProofsInterleave4 ProofsInterleave5 ProofsInterleave6 ProofsInterleave8 ProofsInterleave9 ProofsInterleave10 ProofsInterleave12 ProofsCalls ProofsCalls2 ProofsCause ProofsCause2.
From Coq Require Import String Lia.
Local Open Scope nat_scope.
Local Open Scope list_scope.

(** ** The stored lines under a call *)
Lemma newest_in {A} n (l : list A) a : In a (newest n l) -> In a l.
Proof. intros I. destruct (newest_suffix n l) as (pre & E). rewrite E. apply in_or_app. right. exact I. Qed.
Lemma inputs_grow m : well m ->
  (next_id (inputs_of (m_pre m)) <= next_id (inputs_of (m_post m)))%Z /\
  forall k text, In (k, text) (inputs_of (m_post m)) -> In (k, text) (inputs_of (m_pre m)) \/ (m_call m = AddInput text /\ k = next_id (inputs_of (m_pre m))).
Proof.
  intros (_ & st & R & _ & R'). rewrite (rep_inputs _ _ R), (rep_inputs _ _ R'). pose proof (rp_cap_pos _ _ R) as Cp.
  destruct (m_call m) as [|text| |y v k|y k|y|y| |n]; cbn [spec_call fst]; try (cbn [st_inputs]; split; [lia|auto]; fail).
  - cbn [shrink st_inputs]. rewrite next_id_newest by exact Cp. rewrite next_id_snoc. split; [lia|].
    intros k t I. apply newest_in, in_app_iff in I as [I|[I|[]]]; [left; exact I|right]. injection I as <- <-. auto.
  - destruct (has_input _ _); cbn [fst st_inputs]; split; auto; lia.
  - destruct (st_vars st y) as [[q0 k0]|]; [destruct (has_input _ _)|]; cbn [fst st_inputs]; split; auto; lia.
  - destruct (Z.ltb_spec n 1); cbn [fst]; [split; auto; lia|]. cbn [shrink st_inputs]. rewrite next_id_newest by lia. split; [lia|]. intros k t I. apply newest_in in I. auto.
Qed.
Lemma ids_below d k : program_file d -> In k (ids_of d) -> (k < next_id (inputs_of d))%Z.
Proof. intros P I. destruct (file_store d P) as (st & R). rewrite (rep_inputs _ _ R). apply next_id_above; [apply (rp_incr _ _ R)|]. rewrite <- (ProofsDb4.rep_ids _ _ R). exact I. Qed.
Lemma in_ids d k text : In (k, text) (inputs_of d) -> In k (ids_of d).
Proof. intros I. unfold ids_of. apply in_map_iff. exists (k, text). auto. Qed.
Lemma ids_in d k : In k (ids_of d) -> exists text, In (k, text) (inputs_of d).
Proof. unfold ids_of. intros I. apply in_map_iff in I as ([k0 t] & <- & I). eauto. Qed.

(** ** The account: [G] remembers in which radix a line was read *)
Definition booked (G : Z -> N) (d : database) : Prop :=
  (forall y q k, saved d y q k -> In k (ids_of d)) /\
  (forall k, In k (ids_of d) -> (2 <= G k <= 16)%N) /\
  forall k text y q, In (k, text) (inputs_of d) -> saved d y q k -> line_uses (G k) text y \/ line_assigns (G k) text y.
Lemma booked_accounted G d : booked G d -> accounted d.
Proof.
  intros (A & B & C). split; [intros y q k S1; apply ids_in, (A y q k S1)|]. intros k text I. exists (G k). split; [eapply B, in_ids, I|]. intros y q. apply C, I.
Qed.
Definition due (G : Z -> N) (d : database) (s : seat) : Prop :=
  match s with
  | Resting _ _ => True
  | Working u t => calls (fun _ => False) t \/
      (exists line k, t = Ask (AddInput line) k /\ forall r, match id_of r with Ok id => calls (own_call (a_radix (u_args u)) line id) (k r) | _ => calls (fun _ => False) (k r) end) \/
      exists line id, calls (own_call (a_radix (u_args u)) line id) t /\ (id < next_id (inputs_of d))%Z /\
        forall text, In (id, text) (inputs_of d) -> text = line /\ G id = a_radix (u_args u)
  end.
Definition kept_books (G : Z -> N) (w : room) : Prop := booked G (r_file w) /\ forall i s, r_seat w i = Some s -> due G (r_file w) s.

(** One call *)
Lemma booked_own G m radix line id : well m -> own_call radix line id (m_call m) -> booked G (m_pre m) ->
  (forall text, In (id, text) (inputs_of (m_pre m)) -> text = line /\ G id = radix) -> booked G (m_post m).
Proof.
  intros W Oc (A & B & C) L. destruct (inputs_grow m W) as (_ & Gr).
  assert (Sub : forall k text, In (k, text) (inputs_of (m_post m)) -> In (k, text) (inputs_of (m_pre m))).
  { intros k text I. destruct (Gr k text I) as [X|(X & _)]; [exact X|]. rewrite X in Oc. destruct Oc. }
  assert (Subi : forall k, In k (ids_of (m_post m)) -> In k (ids_of (m_pre m))) by (intros k I; apply ids_in in I as (t & I); eapply in_ids, Sub, I).
  pose proof (own_moment radix line id m W Oc) as T.
  destruct T as [(cap & _ & _ & _ & Ei & Sv)|Sh Sv|y U Sh I Sv|y v U Sh I Sv|y U Sh Sv|n U Cp Ei Sv].
  - split; [intros z q k H; apply Sv in H; apply H|]. split; [intros k I; apply B, Subi, I|]. intros k text z q I H. apply Sv in H as (H & _). eapply C; [apply Sub, I|exact H].
  - destruct Sh as (Ei & _). assert (Ed : ids_of (m_post m) = ids_of (m_pre m)) by (unfold ids_of; rewrite Ei; reflexivity). rewrite <- Ei in C. rewrite <- Ed in A, B.
    split; [intros z q k H; apply Sv in H; eapply A, H|]. split; [exact B|]. intros k text z q I H. apply Sv in H. eapply C; eassumption.
  - destruct Sh as (Ei & _). assert (Ed : ids_of (m_post m) = ids_of (m_pre m)) by (unfold ids_of; rewrite Ei; reflexivity). rewrite <- Ei in C, L. rewrite <- Ed in A, B, I.
    split; [intros z q k H; apply Sv in H as [(_ & H)|(_ & -> & _)]; [eapply A, H|exact I]|]. split; [exact B|].
    intros k text z q I1 H. apply Sv in H as [(_ & H)|(-> & -> & _)]; [eapply C; eassumption|]. destruct (L _ I1) as (-> & ->). left. exact U.
  - destruct Sh as (Ei & _). assert (Ed : ids_of (m_post m) = ids_of (m_pre m)) by (unfold ids_of; rewrite Ei; reflexivity). rewrite <- Ei in C, L. rewrite <- Ed in A, B, I.
    split; [intros z q k H; apply Sv in H as [(_ & H)|(_ & -> & _)]; [eapply A, H|exact I]|]. split; [exact B|].
    intros k text z q I1 H. apply Sv in H as [(_ & H)|(-> & -> & _)]; [eapply C; eassumption|]. destruct (L _ I1) as (-> & ->). right. exact U.
  - destruct Sh as (Ei & _). assert (Ed : ids_of (m_post m) = ids_of (m_pre m)) by (unfold ids_of; rewrite Ei; reflexivity). rewrite <- Ei in C. rewrite <- Ed in A, B.
    split; [intros z q k H; apply Sv in H as (_ & H); eapply A, H|]. split; [exact B|]. intros k text z q I H. apply Sv in H as (_ & H). eapply C; eassumption.
  - split; [intros z q k H; apply Sv in H; apply H|]. split; [intros k I; apply B, Subi, I|]. intros k text z q I H. apply Sv in H as (H & _). eapply C; [apply Sub, I|exact H].
Qed.
Definition noted (G : Z -> N) (id : Z) (radix : N) : Z -> N := fun k => if Z.eqb k id then radix else G k.
Lemma noted_other G id radix k : k <> id -> noted G id radix k = G k.
Proof. intros N. unfold noted. destruct (Z.eqb_spec k id); [contradiction|reflexivity]. Qed.
Lemma noted_same G id radix : noted G id radix id = radix.
Proof. unfold noted. rewrite Z.eqb_refl. reflexivity. Qed.
Lemma booked_record G m radix line : well m -> m_call m = AddInput line -> (2 <= radix <= 16)%N -> booked G (m_pre m) ->
  booked (noted G (next_id (inputs_of (m_pre m))) radix) (m_post m).
Proof.
  intros W Cm Hr (A & B & C). destruct (inputs_grow m W) as (_ & Gr). pose proof W as (P & st & R & E & R').
  assert (Er : m_reply m = RId (next_id (inputs_of (m_pre m)))) by (rewrite Cm in E; cbn [spec_call snd] in E; rewrite (rep_inputs _ _ R); exact E).
  pose proof (record_moment radix line _ m W Cm Er) as T. set (id := next_id (inputs_of (m_pre m))) in *.
  assert (Sv : forall z q k, saved (m_post m) z q k <-> saved (m_pre m) z q k /\ In k (ids_of (m_post m))).
  { intros z q k. rewrite (rep_saved _ _ _ _ _ R'), (rep_saved _ _ _ _ _ R), (ProofsDb4.rep_ids _ _ R'). rewrite Cm. cbn [spec_call fst]. rewrite shrink_saved. reflexivity. }
  clear T.
  assert (New : forall z q, ~ saved (m_pre m) z q id) by (intros z q H; apply A, (ids_below _ _ P) in H; unfold id in H; lia).
  split; [intros z q k H; apply Sv in H; apply H|]. split.
  - intros k I. destruct (Z.eq_dec k id) as [->|N]; [rewrite noted_same; exact Hr|]. rewrite noted_other by exact N. apply B. apply ids_in in I as (t & I). destruct (Gr k t I) as [X|(_ & X)]; [eapply in_ids, X|contradiction].
  - intros k text z q I H. apply Sv in H as (H & _). destruct (Z.eq_dec k id) as [->|N]; [destruct (New z q H)|]. rewrite noted_other by exact N.
    destruct (Gr k text I) as [X|(_ & X)]; [|contradiction]. eapply C; eassumption.
Qed.

(** ** The room *)
Lemma due_same G G' d d' s : (next_id (inputs_of d) <= next_id (inputs_of d'))%Z -> (forall k, (k < next_id (inputs_of d))%Z -> G' k = G k) ->
  (forall k text, (k < next_id (inputs_of d))%Z -> In (k, text) (inputs_of d') -> In (k, text) (inputs_of d)) -> due G d s -> due G' d' s.
Proof.
  intros L E I. destruct s as [u e|u t]; [auto|]. cbn [due]. intros [H|[H|(line & id & H & Lt & T)]]; [left; exact H|right; left; exact H|right; right].
  exists line, id. split; [exact H|]. split; [lia|]. intros text X. rewrite (E id Lt). apply T, I; assumption.
Qed.
Section Room.
  Context (pr : profile) (ord : nat -> nat -> list str -> list str) (tm : nat -> terminal).
  Context (Ho : forall i n, iterates (ord i n)).
  Notation rstep := (room_step pr ord the_executor tm).
  Notation rrun := (room_run pr ord the_executor tm).
  Lemma due_go_on G d i u t : due G d (Working u t) -> due G d (fst (go_on pr (tm i) u t)).
  Proof.
    destruct t as [ans|c k]; [|auto]. intros _. cbn [go_on]. destruct ans as [[[a' h'] vars'] r]. unfold answer_line.
    destruct (render r) as [text|e|p]; [destruct (start_line _ _ _) as [[? ?] ?]|..]; exact Logic.I.
  Qed.
  Lemma due_line G d i u : due G d (Working u (line_io pr (ord i (u_count u)) the_executor (match current_line (E := runtime_error) (u_inputs u) with Ok l => l | _ => [] end) (u_args u) (u_inputs u) (u_vars u))).
  Proof.
    cbn [due]. unfold line_io. destruct (current_line (u_inputs u)) as [line|e|p]; [right; left|left; exact Logic.I..]. cbv zeta. eexists line, _. split; [reflexivity|].
    intros r. cbv beta. destruct (id_of r) as [id|e|p]; [|exact Logic.I..]. apply calls_bind; [apply own_body, Ho|intros; exact Logic.I].
  Qed.
  Lemma books_step G tn w : proper_turn tn -> sound_room w -> kept_books G w -> exists G', kept_books G' (fst (rstep tn w)).
  Proof.
    intros Pt Sd (Bk & Du). pose proof Sd as (Mf & Ss).
    assert (Oth : forall s i, due G (r_file w) s -> forall j s', seated (r_seat w) i s j = Some s' -> due G (r_file w) s').
    { intros s i H j s' E. destruct (Nat.eq_dec j i) as [->|N]; [rewrite seated_same in E; injection E as <-; exact H|]. rewrite seated_other in E by exact N. eapply Du, E. }
    destruct tn as [i a wanted|i ev|i].
    - exists G. cbn [room_step]. destruct (r_seat w i) eqn:Sk; [split; assumption|]. destruct wanted as [faults|].
      + destruct (sd_open faults (r_file w)) as [file o] eqn:Op. destruct (open_made _ _ _ _ Mf Op) as [(_ & -> & ->)|(_ & sd & -> & Ed & Pf & Ei & Sv & _)]; [split; assumption|].
        destruct (interactive_start pr (tm i) a (Some sd)) as [[u out] st]. cbn [fst]. assert (Ed' : ids_of file = ids_of (r_file w)) by (unfold ids_of; rewrite Ei; reflexivity). split.
        * cbn [r_file]. destruct Bk as (A & B & C). split; [intros y q k H; rewrite Ed'; apply Sv in H; eapply A, H|]. rewrite Ed'. split; [exact B|]. intros k text y q. rewrite Ei. intros I H. apply Sv in H. eapply C; eassumption.
        * cbn [r_file r_seat]. intros j s E. eapply (due_same G G (r_file w)); [rewrite Ei; lia|reflexivity|rewrite Ei; auto|]. exact (Oth (Resting _ _) i Logic.I j s E).
      + destruct (interactive_start pr (tm i) a None) as [[u out] st]. cbn [fst]. split; [exact Bk|]. exact (Oth (Resting _ _) i Logic.I).
    - exists G. cbn [room_step]. destruct (r_seat w i) as [[u e|u t]|] eqn:Sk; [|split; assumption..]. destruct e; try (split; assumption).
      assert (Ui : enter ev = false \/ u_db u = None -> kept_books G (fst (let '(u', out, st) := ui_step pr (ord i) the_executor (tm i) ev (with_file (r_file w) u) in
              (mkRoom (file_of (r_file w) u') (seated (r_seat w) i (Resting u' (ending_of st))), out)))).
      { intros Nn. assert (F : file_of (r_file w) (fst (fst (ui_step pr (ord i) the_executor (tm i) ev (with_file (r_file w) u)))) = r_file w).
        { destruct Nn as [En|Ed].
          - unfold ui_step. pose proof (handle_event_file ev (u_line (with_file (r_file w) u)) (u_inputs (with_file (r_file w) u)) (u_db (with_file (r_file w) u))) as F.
            destruct (handle_event ev _ _ _) as [[[l' h'] db'] act] eqn:He. cbv zeta.
            assert (Z : forall l0 h0 c0 a0, file_of (r_file w) (mkUi a0 (u_vars (with_file (r_file w) u)) db' h0 l0 c0) = r_file w).
            { intros. unfold file_of. cbn [u_db]. unfold same_file in F. cbn in F. destruct (u_db u), db'; try contradiction; [exact F|reflexivity]. }
            destruct act; cbn [fst]; try apply Z.
            + destruct (display _ _ _ _ _) as [[l2 o2]|e2|p2]; cbn [fst]; apply Z.
            + destruct (enter_only _ _ _ _ _ _ _ He) as ((mods & ->) & _). discriminate En.
          - pose proof (ui_step_none pr (ord i) the_executor (tm i) ev (with_file (r_file w) u) (Ho i)) as N1. rewrite with_file_db in N1. destruct (Ss i _ Sk) as (_ & Gd). specialize (N1 (Gd eq_refl) Ed).
            unfold file_of. rewrite N1. reflexivity. }
        destruct (ui_step _ _ _ _ _ _) as [[u' out] st]. cbn [fst] in *. rewrite F. split; [exact Bk|]. exact (Oth (Resting _ _) i Logic.I). }
      destruct (enter ev) eqn:En; [|apply Ui; auto]. destruct (u_db u) as [sd|] eqn:Ed; [|apply Ui; auto]. clear Ui.
      unfold begin_line. set (v := with_file (r_file w) u).
      destruct (display _ _ _ _ _) as [[l1 out1]|e|p]; [|split; [exact Bk|exact (Oth (Resting _ _) i Logic.I)]..].
      pose proof (due_line G (r_file w) i v) as Dl.
      destruct (current_line (u_inputs v)) as [input|e|p] eqn:Cl; [|split; [exact Bk|exact (Oth (Resting _ _) i Logic.I)]..].
      apply (due_go_on _ _ i) in Dl. destruct (go_on _ _ _ _) as [s out]. split; [exact Bk|]. exact (Oth _ i Dl).
    - destruct (r_seat w i) as [[u e|u t]|] eqn:Sk; [exists G; cbn [room_step]; rewrite Sk; split; assumption| |exists G; cbn [room_step]; rewrite Sk; split; assumption].
      destruct t as [ans|c k]; [exists G; cbn [room_step]; rewrite Sk; split; assumption|].
      destruct (goes_perform pr ord the_executor tm i u c k w Sd Sk) as (sd & Ed & Fc & Pf & Rf & Ef & Es & _). cbv zeta in Ef, Es.
      assert (Seat : forall j, j <> i -> r_seat (fst (rstep (Goes i) w)) j = r_seat w j).
      { intros j N. cbn [room_step]. rewrite Sk, Ed. destruct (perform _ _) as [sd' r]. destruct (go_on _ _ _ _) as [s out]. cbn [fst r_seat]. apply seated_other, N. }
      set (w' := fst (rstep (Goes i) w)) in *. pose proof (Du i _ Sk) as D.
      set (p := perform c (mkSD (r_file w) (sd_pos sd) (sd_faults sd))) in *.
      assert (Next : forall G', booked G' (r_file w') -> (forall j s, j <> i -> r_seat w j = Some s -> due G' (r_file w') s) -> due G' (r_file w') (Working (with_db u (Some (fst p))) (k (snd p))) -> kept_books G' w').
      { intros G' B1 O1 D1. split; [exact B1|]. intros j s E. destruct (Nat.eq_dec j i) as [->|N]; [|rewrite Seat in E by exact N; eapply O1; eassumption]. rewrite Es in E. injection E as <-. apply due_go_on, D1. }
      destruct (hd false (sd_faults sd)) eqn:Hd.
      + exists G. assert (Er : snd p = RError SqliteError) by (apply perform_refused; assumption).
        assert (Fs : r_file w' = r_file w).
        { rewrite Ef. unfold p. clear - Hd Fc. destruct Fc as (No & Np & _). assert (K : forall A (m : tx A), sd_db (fst (sd_call m (mkSD (r_file w) (sd_pos sd) (sd_faults sd)))) = r_file w) by (intros A m; unfold sd_call; cbn [sd_faults sd_db]; destruct (sd_faults sd) as [|[|] fs]; try discriminate Hd; reflexivity).
          destruct c; try congruence; cbn [perform]; cbv zeta; cbn [fst]; apply K. }
        rewrite Fs in Next. apply Next; [exact Bk|intros j s _ E; eapply Du, E|]. rewrite Er. clear - D. cbn [due u_args with_db] in *.
        destruct D as [D|[(line & k1 & E & K)|(line & id & D & X)]]; [left; apply D|left|right; right; exists line, id; split; [apply D|exact X]].
        injection E as _ <-. exact (K (RError SqliteError)).
      + destruct (perform_accepted c (r_file w) (sd_pos sd) (sd_faults sd) Fc Hd) as (E1 & E2). fold p in E1, E2.
        destruct (perform c (mkSD (r_file w) (sd_pos sd) [])) as [sd1 r1] eqn:Pe. cbn [fst snd] in E1, E2. destruct (perform_well _ _ _ _ _ _ Pf (@in_nil _ true) Fc Pe) as (W & _).
        rewrite E1 in Ef. set (m := mkMoment (r_file w) c r1 (sd_db sd1)) in W.
        destruct (inputs_grow m W) as (Ln & Gr). unfold m in Ln, Gr. cbn [m_pre m_post m_call] in Ln, Gr. rewrite <- Ef in Ln, Gr.
        cbn [due] in D. destruct D as [(D & _)|[(line & k1 & E & K)|(line & id & (Dc & Dk) & Lt & T)]]; [destruct D| |].
        * injection E as -> <-. exists (noted G (next_id (inputs_of (r_file w))) (a_radix (u_args u))).
          assert (Hr : (2 <= a_radix (u_args u) <= 16)%N) by (destruct (Ss i _ Sk) as (_ & _ & (V & _) & _); exact V || (apply radix_ok_spec; exact V)).
          pose proof (booked_record G m (a_radix (u_args u)) line W eq_refl Hr Bk) as B1. unfold m in B1. cbn [m_pre m_post] in B1. rewrite <- Ef in B1.
          apply Next; [exact B1| |].
          -- intros j s N E. apply (due_same G _ (r_file w)); [exact Ln|intros z Lz; apply noted_other; lia| |exact (Du j s E)]. intros z text Lz I. destruct (Gr z text I) as [X|(_ & X)]; [exact X|lia].
          -- destruct W as (_ & st & R & Er & R'). unfold m in Er, R, R'. cbn [m_pre m_call m_reply m_post spec_call snd fst] in Er, R, R'. rewrite <- Ef in R'. specialize (K r1). rewrite Er in K. cbn [id_of] in K. rewrite E2, Er. cbn [due u_args with_db].
             right; right. exists line, (next_id (st_inputs st)). split; [exact K|]. rewrite (rep_inputs _ _ R) in *. split.
             ++ rewrite (rep_inputs _ _ R'). cbn [shrink st_inputs]. rewrite next_id_newest by (exact (rp_cap_pos _ _ R)). rewrite next_id_snoc. lia.
             ++ intros text I. rewrite noted_same. split; [|reflexivity]. destruct (Gr _ _ I) as [X|(X & _)]; [|congruence].
                exfalso. apply (in_map fst) in X. apply next_id_above in X; [cbn [fst] in X; lia|apply (rp_incr _ _ R)].
        * exists G. pose proof (booked_own G m _ line id W Dc Bk T) as B1. unfold m in B1. cbn [m_post] in B1. rewrite <- Ef in B1.
          assert (Sub : forall z text, In (z, text) (inputs_of (r_file w')) -> In (z, text) (inputs_of (r_file w))).
          { intros z text I. destruct (Gr z text I) as [X|(X & _)]; [exact X|]. rewrite X in Dc. destruct Dc. }
          apply Next; [exact B1|intros j s N E; apply (due_same G _ (r_file w)); [exact Ln|reflexivity|intros; apply Sub; assumption|exact (Du j s E)]|].
          cbn [due u_args with_db]. right; right. exists line, id. split; [apply Dk|]. split; [lia|]. intros text I. apply T, Sub, I.
  Qed.
  Lemma books_run turns : forall G w, Forall proper_turn turns -> sound_room w -> kept_books G w -> Forall accounted (room_files pr ord the_executor tm turns w).
  Proof.
    induction turns as [|tn turns IH]; intros G w P Sd K; cbn [room_files]; (constructor; [eapply booked_accounted, K|]); [constructor|]. inversion P; subst.
    destruct (books_step G tn w ltac:(assumption) Sd K) as (G' & K'). eapply IH; [assumption|apply sound_turn; assumption|exact K'].
  Qed.
End Room.
(** A choice of the radixes: there are finitely many lines. *)
Lemma books_open d : made_file d -> accounted d -> exists G, booked G d.
Proof.
  intros M (A & B). assert (Nd : NoDup (ids_of d)).
  { destruct M as (w & R & <-). destruct (reachable_file w R) as [(F & _)|(st & Rp)]; [rewrite F; constructor|]. rewrite (ProofsDb4.rep_ids _ _ Rp). apply incr_nodup, (rp_incr _ _ Rp). }
  assert (X : exists G, forall k text, In (k, text) (inputs_of d) -> (2 <= G k <= 16)%N /\ forall y q, saved d y q k -> line_uses (G k) text y \/ line_assigns (G k) text y).
  { unfold ids_of in Nd. revert Nd B. generalize (inputs_of d). clear A. induction l as [|[k0 t0] l IH]; intros Nd B; [exists (fun _ => 10%N); intros ? ? []|].
    cbn [map fst] in Nd. inversion Nd as [|? ? Nk Nd']; subst. destruct (IH Nd' ltac:(intros k text I; apply B; right; exact I)) as (G & HG). destruct (B k0 t0 (or_introl eq_refl)) as (r & Hr & H).
    exists (noted G k0 r). intros k text [E|I]; [injection E as <- <-; rewrite noted_same; auto|]. rewrite noted_other; [apply HG, I|]. intros ->. apply Nk. apply (in_map fst) in I. exact I. }
  destruct X as (G & HG). exists G. split; [intros y q k H; destruct (A y q k H) as (t & I); eapply in_ids, I|]. split; [intros k I; apply ids_in in I as (t & I); eapply HG, I|].
  intros k text y q I. apply (HG k text I).
Qed.

(** ** The names *)
Lemma reading_names radix o s ts : reading radix o s ts -> forall y p, In (mkPositioned (TVariable y) p) ts -> stands_in y s.
Proof.
  assert (Step : forall y w s0, stands_in y s0 -> stands_in y (w ++ s0)) by (intros y w s0 (b & a & ->); exists (w ++ b), a; rewrite app_assoc; reflexivity).
  induction 1 as [o|o c s ts B R IH|o c t s ts P R IH|o w t s ts N W En T R IH]; intros y p I; [destruct I| | |].
  - apply (Step _ [c]). eapply IH, I.
  - destruct I as [I|I]; [|apply (Step _ [c]); eapply IH, I]. injection I as -> _. exfalso. cbn in P. repeat (destruct P as [P|P]; [discriminate|]); destruct P.
  - destruct I as [I|I]; [|apply Step; eapply IH, I]. injection I as -> _. inversion T as [name|w' t' K|w' v K NU]; subst; [exists [], s; reflexivity|].
    exfalso. cbn in K. repeat (destruct K as [K|K]; [discriminate K|]). destruct K.
Qed.
Lemma listed_names arguments names y : variable_list arguments names -> In y names -> stands_in y arguments.
Proof.
  intros (_ & _ & ts & R & E) I. apply (in_map TVariable) in I. rewrite <- E in I. apply in_map_iff in I as ([t p] & Et & I). cbn in Et. subst t. eapply reading_names; eassumption.
Qed.
Lemma command_stands radix line name arguments y : is_command radix line name arguments -> stands_in y arguments -> stands_in y line.
Proof.
  intros (n & a & T & _ & <-) (b & e & H). apply tokenize_command in T as (_ & pre & body & -> & _ & X).
  destruct X as [(_ & _ & Ea)|(nm & c & rest & -> & _ & _ & _ & Ea)]; rewrite Ea in H; cbn [pd_value] in H.
  - symmetry in H. apply app_eq_nil in H as (-> & H). apply app_eq_nil in H as (-> & ->). exists (pre ++ lit "/" ++ body), []. rewrite !app_nil_r. reflexivity.
  - subst rest. exists (pre ++ lit "/" ++ nm ++ c :: b), e. rewrite <- !app_assoc. reflexivity.
Qed.
Lemma used_stands radix line y : (2 <= radix <= 16)%N -> line_uses radix line y \/ line_assigns radix line y -> stands_in y line.
Proof.
  intros Hr [[(ts & T & (p & I))|(arguments & names & C & V & I)]|(ts & n & T & (p & q & rest & -> & _))].
  - apply tokenize_tokens in T as (_ & _ & R); [|apply radix_ok_spec; lia]. eapply reading_names; eassumption.
  - eapply command_stands; [exact C|]. eapply listed_names; eassumption.
  - apply tokenize_tokens in T as (_ & _ & R); [|apply radix_ok_spec; lia]. eapply reading_names; [exact R|]. left. reflexivity.
Qed.
Lemma used_few radix line names : (2 <= radix <= 16)%N -> NoDup names -> (forall y, In y names -> line_uses radix line y \/ line_assigns radix line y) -> List.length names <= dollars line.
Proof.
  intros Hr Nd H. destruct (tokenize line radix) as [[ts|name arg]|e|p] eqn:T.
  - apply (expression_short radix line ts (mentions ts) names Hr T); [|auto]. split; [exact Nd|]. intros y I.
    destruct (H y I) as [[(ts' & T' & Mn)|(arguments & names' & (n & a & T' & _) & _)]|(ts' & n & T' & (p & q & rest & -> & _))]; unfold is_expression in T'.
    + rewrite T in T'. injection T' as <-. exact Mn.
    + rewrite T in T'. discriminate T'.
    + rewrite T in T'. injection T' as ->. exists p. left. reflexivity.
  - assert (C : exists arguments names', is_command radix line (lit "reloadvar") arguments /\ variable_list arguments names' /\ incl names names' \/ names = []).
    { destruct names as [|y0 names]; [exists [], []; auto|].
      assert (K : forall y, In y (y0 :: names) -> exists arguments names', is_command radix line (lit "reloadvar") arguments /\ variable_list arguments names' /\ In y names').
      { intros y I. destruct (H y I) as [[(ts' & T' & Mn)|X]|(ts' & n & T' & _)]; [unfold is_expression in T'; congruence|exact X|unfold is_expression in T'; congruence]. }
      destruct (K y0 (or_introl eq_refl)) as (arguments & names' & C & V & _). exists arguments, names'. left. split; [exact C|]. split; [exact V|]. intros y I. destruct (K y I) as (arguments2 & names2 & C2 & V2 & I2).
      assert (arguments2 = arguments). { destruct C as (n1 & a1 & T1 & _ & <-). destruct C2 as (n2 & a2 & T2 & _ & <-). rewrite T1 in T2. injection T2 as _ <-. reflexivity. }
      subst arguments2. apply variable_list_iff in V as (l & Vl & ->). apply variable_list_iff in V2 as (l2 & Vl2 & ->). congruence. }
    destruct C as (arguments & names' & [(C & V & I)| ->]); [|cbn; lia]. pose proof (command_dollars _ _ _ _ C). pose proof (list_dollars _ _ V). pose proof (NoDup_incl_length Nd I). lia.
  - destruct names as [|y names]; [cbn; lia|]. exfalso. destruct (H y (or_introl eq_refl)) as [[(ts' & T' & _)|(? & ? & (n & a & T' & _) & _)]|(ts' & n & T' & _)]; unfold is_expression in *; congruence.
  - destruct names as [|y names]; [cbn; lia|]. exfalso. destruct (H y (or_introl eq_refl)) as [[(ts' & T' & _)|(? & ? & (n & a & T' & _) & _)]|(ts' & n & T' & _)]; unfold is_expression in *; congruence.
Qed.
(** At most as many variables as dollar signs. *)
Lemma accounted_few d names : accounted d -> NoDup names -> (forall y, In y names -> exists q k, saved d y q k) -> List.length names <= all_dollars (inputs_of d).
Proof.
  intros (A & B) Nd H.
  assert (K : forall l, (forall k text, In (k, text) l -> In (k, text) (inputs_of d)) -> forall names, NoDup names -> (forall y, In y names -> exists q k text, saved d y q k /\ In (k, text) l) -> List.length names <= all_dollars l).
  { clear H Nd names. induction l as [|[k0 t0] l IH]; intros Sub names Nd H.
    - destruct names as [|y names]; [cbn; lia|]. destruct (H y (or_introl eq_refl)) as (q & k & t & _ & []).
    - assert (Sp : exists l1 l2, NoDup l1 /\ NoDup l2 /\ (forall y, In y l1 -> exists q, saved d y q k0) /\ (forall y, In y l2 -> exists q k text, saved d y q k /\ In (k, text) l) /\ List.length names = List.length l1 + List.length l2 /\ incl l1 names /\ incl l2 names).
      { clear IH. induction names as [|y names IHn]; [exists [], []; repeat split; try constructor; intros ? []|]. inversion Nd as [|? ? Ny Nd']; subst.
        destruct (IHn Nd' ltac:(intros z I; apply H; right; exact I)) as (l1 & l2 & N1 & N2 & H1 & H2 & E & I1 & I2).
        destruct (H y (or_introl eq_refl)) as (q & k & t & Hs & [X|X]).
        - injection X as <- <-. exists (y :: l1), l2. split; [constructor; [intros I; apply Ny, I1, I|exact N1]|]. split; [exact N2|]. split; [intros z [<-|I]; [eauto|auto]|]. split; [exact H2|]. split; [cbn; lia|].
          split; [intros z [<-|I]; [left; reflexivity|right; auto]|intros z I; right; auto].
        - exists l1, (y :: l2). split; [exact N1|]. split; [constructor; [intros I; apply Ny, I2, I|exact N2]|]. split; [exact H1|]. split; [intros z [<-|I]; [eauto 6|auto]|]. split; [cbn; lia|].
          split; [intros z I; right; auto|intros z [<-|I]; [left; reflexivity|right; auto]]. }
      destruct Sp as (l1 & l2 & N1 & N2 & H1 & H2 & E & _). rewrite E. cbn [all_dollars]. destruct (B k0 t0 (Sub _ _ (or_introl eq_refl))) as (r & Hr & U).
      pose proof (used_few r t0 l1 Hr N1 ltac:(intros y I; destruct (H1 y I) as (q & X); eapply U, X)). pose proof (IH ltac:(intros k t I; apply Sub; right; exact I) l2 N2 H2). lia. }
  apply (K (inputs_of d)); [auto|exact Nd|]. intros y I. destruct (H y I) as (q & k & Hs). destruct (A y q k Hs) as (t & It). eauto 6.
Qed.
