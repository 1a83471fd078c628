(** ProofsProfile.v -- the two build profiles differ only where the debug build panics on overflow (for C108). *)
From Verif Require Import Base Position Num TokenTypes Errors Token Operations SavedData Variables InputHistory
  SyntaxTree Commands Calculate Editor Sessions Main Io CommandLine SpecLex SpecGrammar SpecEditor SpecCalc SpecMain SpecSize SpecReport SpecProfile.
From Verif Require Import ProofsParse ProofsIo ProofsSession ProofsLex ProofsCalc4 ProofsMain ProofsReport PropertiesLex PropertiesParse.
From Coq Require Import String Lia.
Local Open Scope nat_scope.
Local Open Scope list_scope.

(** [P] is where they may differ: there the debug build panics. *)
Definition agree (P : Prop) {E A} (d r : outcome E A) : Prop := (P /\ d = Panic ArithOverflow) \/ d = r.
Definition agree2 (P : Prop) {B E A} (d r : B * outcome E A) : Prop := (P /\ snd d = Panic ArithOverflow) \/ d = r.

Lemma agree_refl (P : Prop) E A (d : outcome E A) : agree P d d. Proof. right; reflexivity. Qed.
Lemma agree_bind (P : Prop) E A B (d r : outcome E A) (f g : A -> outcome E B) : agree P d r -> (forall a, d = Ok a -> agree P (f a) (g a)) -> agree P (bind d f) (bind r g).
Proof. intros [[H ->]| <-] K; [left; auto|]. destruct d; cbn; [apply K; reflexivity|apply agree_refl|apply agree_refl]. Qed.
Lemma agree_map (P : Prop) E F A (f : E -> F) (d r : outcome E A) : agree P d r -> agree P (map_err f d) (map_err f r).
Proof. intros [[H ->]| <-]; [left; auto|apply agree_refl]. Qed.
Lemma agree_more (P Q : Prop) E A (d r : outcome E A) : (P -> Q) -> agree P d r -> agree Q d r.
Proof. intros I [[H ->]| <-]; [left; auto|apply agree_refl]. Qed.

Lemma agree_u8 E a b : agree (256 <= a + b)%N (@u8_add E Debug a b) (u8_add Release a b).
Proof. unfold u8_add. destruct (N.ltb_spec (a + b) 256); [apply agree_refl|left; auto]. Qed.
Lemma agree_u16 a b : agree (~ fits_u16 (a + b)) (u16_add Debug a b) (u16_add Release a b).
Proof. unfold u16_add, fits_u16. destruct (N.ltb_spec (N.of_nat (a + b)) 65536); [apply agree_refl|left; split; [lia|reflexivity]]. Qed.

(** Whole-number arguments are never negative where they are negated. *)
Lemma agree_neg E z : agree True (@i64_neg E Debug z) (i64_neg Release z).
Proof. unfold i64_neg. destruct (Z.eqb _ _); [left; auto|apply agree_refl]. Qed.
Lemma agree_ints ts : forall neg res, agree True (collect_ints Debug ts neg res) (collect_ints Release ts neg res).
Proof.
  induction ts as [|t ts IH]; intros neg res; cbn [collect_ints]; [apply agree_refl|].
  destruct (pd_value t); try apply agree_refl.
  all: repeat first [apply agree_refl | apply IH | apply agree_bind; [apply agree_neg|intros n _]
    | match goal with |- agree _ (match ?x with _ => _ end) _ => destruct x end].
Qed.
Lemma same_int_list s : tokenize_int_list Debug s 10 = tokenize_int_list Release s 10.
Proof.
  assert (A : agree True (tokenize_int_list Debug s 10) (tokenize_int_list Release s 10)).
  { unfold tokenize_int_list. destruct (tokenize s 10) as [[ts|name a]|e|p]; try apply agree_refl. apply agree_ints. }
  destruct A as [[_ A]|A]; [|exact A]. exfalso. refine (C07_no_crash Debug s 10 _ _ A). lia.
Qed.

(** Powers. *)
Definition many_digits (a : args) : Prop := (256 <= a_precision a + a_extra_precision a + 1)%N.
Lemma agree_power a p b e : agree (many_digits a) (exec_power Debug a p b e) (exec_power Release a p b e).
Proof.
  unfold exec_power, many_digits. apply agree_bind; [eapply agree_more; [|apply agree_u8]; lia|intros t Ht]. apply agree_map.
  unfold exponentiate. apply agree_bind; [apply agree_refl|intros base _]. cbv zeta.
  apply agree_bind; [|intros p1 _; apply agree_refl]. eapply agree_more; [|apply agree_u8]. intros G.
  unfold u8_add in Ht. destruct (N.ltb _ _) in Ht; [injection Ht as <-; exact G|discriminate Ht].
Qed.
Definition power_node (m : node) : Prop := match m with NBin Exponent _ _ _ => True | NUn SquareRoot _ _ => True | _ => False end.
Definition has_power (n : node) : Prop := exists m, subnode m n /\ power_node m.

Lemma agree2_refl (P : Prop) B E A (d : B * outcome E A) : agree2 P d d. Proof. right; reflexivity. Qed.
Lemma agree2_snd (P : Prop) B E A (s : B) (d r : outcome E A) : agree P d r -> agree2 P (s, d) (s, r).
Proof. intros [[H ->]| <-]; [left; auto|apply agree2_refl]. Qed.
Lemma agree2_then (P : Prop) A B (d r : env * outcome failure A) (f g : A -> env -> env * outcome failure B) :
  agree2 P d r -> (forall a s, agree2 P (f a s) (g a s)) -> agree2 P (then_do d f) (then_do r g).
Proof.
  intros [[Hp H]| <-] K; [left; split; [exact Hp|]|].
  - destruct d as [s d]; cbn [snd] in H; subst d. reflexivity.
  - destruct d as [s [a|e|p]]; cbn [then_do]; [apply K|apply agree2_refl|apply agree2_refl].
Qed.
Lemma agree2_more (P Q : Prop) B E A (d r : B * outcome E A) : (P -> Q) -> agree2 P d r -> agree2 Q d r.
Proof. intros I [[Hp H]| <-]; [left; auto|apply agree2_refl]. Qed.
Lemma agree_exec a : forall n s, agree2 (many_digits a /\ has_power n) (exec Debug a n s) (exec Release a n s).
Proof.
  fix IH 1. intros [v p|name p|op p n|op p n1 n2|f p l pl|p q n] s; cbn [exec].
  - apply agree2_refl.
  - apply agree2_refl.
  - apply agree2_then; [|intros x s1; apply agree2_snd].
    + eapply agree2_more; [|apply IH]. intros (G & m & M & Pm). split; [exact G|]. exists m. split; [apply sn_un, M|exact Pm].
    + destruct op; cbn [exec_unary]; try apply agree_refl. eapply agree_more; [|apply agree_power]. intros G. split; [exact G|]. eexists. split; [apply sn_here|exact I].
  - apply agree2_then; [|intros x s1; apply agree2_then; [|intros y s2; apply agree2_snd]].
    + eapply agree2_more; [|apply IH]. intros (G & m & M & Pm). split; [exact G|]. exists m. split; [apply sn_left, M|exact Pm].
    + eapply agree2_more; [|apply IH]. intros (G & m & M & Pm). split; [exact G|]. exists m. split; [apply sn_right, M|exact Pm].
    + destruct op; cbn [exec_binary]; try apply agree_refl. eapply agree_more; [|apply agree_power]. intros G. split; [exact G|]. eexists. split; [apply sn_here|exact I].
  - apply agree2_then; [|intros; apply agree2_refl].
    assert (Z : Forall (fun m => forall s', agree2 (many_digits a /\ has_power m) (exec Debug a m s') (exec Release a m s')) l).
    { induction l as [|m k IHk]; constructor; [intros s'; apply IH|exact IHk]. }
    clear IH. assert (K : forall m, In m l -> forall s', agree2 (many_digits a /\ has_power (NFun f p l pl)) (exec Debug a m s') (exec Release a m s')).
    { intros m Im s'. eapply agree2_more; [|exact (proj1 (Forall_forall _ _) Z m Im s')]. intros (G & m' & M & Pm). split; [exact G|]. exists m'. split; [eapply sn_fun; eauto|exact Pm]. }
    clear Z. revert K. generalize (many_digits a /\ has_power (NFun f p l pl)) as P. intros P K. revert s. induction l as [|m l IHl]; intros s; [apply agree2_refl|].
    apply agree2_then; [apply K; left; reflexivity|intros x s1]. apply agree2_then; [apply IHl; intros; apply K; right; assumption|intros; apply agree2_refl].
  - eapply agree2_more; [|apply IH]. intros (G & m & M & Pm). split; [exact G|]. exists m. split; [apply sn_paren, M|exact Pm].
Qed.
Lemma agree_tree a t id s : agree2 (many_digits a /\ has_power (st_root t)) (tree_execute Debug a t id s) (tree_execute Release a t id s).
Proof. unfold tree_execute. apply agree2_then; [apply agree_exec|intros; apply agree2_refl]. Qed.

(** The powers of a tree are among its tokens. *)
Definition power_token (t : ptoken) : Prop := pd_value t = TBin Exponent \/ pd_value t = TUn SquareRoot.
Definition powerful (ts : list ptoken) : Prop := exists t, In t ts /\ power_token t.
Lemma powerful_not ts : powerful ts -> ~ free_of_powers ts.
Proof. intros (t & I & [E|E]) F; destruct (F t I) as [A B]; auto. Qed.
Lemma powerful_in ts us : powerful ts -> (forall t, In t ts -> In t us) -> powerful us.
Proof. intros (t & I & E) K. exists t. auto. Qed.
Lemma derives_power :
  (forall k ts n, derives k ts n -> has_power n -> powerful ts) /\
  (forall ts ns, derives_args ts ns -> (exists n, In n ns /\ has_power n) -> powerful ts) /\
  (forall ts ns, derives_list ts ns -> (exists n, In n ns /\ has_power n) -> powerful ts).
Proof.
  apply derives_mutind.
  - intros v p (m & M & Pm). inversion M; subst. destruct Pm.
  - intros x p (m & M & Pm). inversion M; subst. destruct Pm.
  - intros o p ts n _ IH (m & M & Pm). inversion M; subst.
    + exists (tk (TUn o) p). split; [left; reflexivity|]. right. destruct o; [reflexivity|destruct Pm..].
    + eapply powerful_in; [apply IH; exists m; eauto|intros; right; assumption].
  - intros p q ts n _ IH (m & M & Pm). inversion M; subst; [destruct Pm|].
    eapply powerful_in; [apply IH; exists m; eauto|]. intros t I. right. apply in_or_app. auto.
  - intros f p ts n _ IH _ (m & M & Pm). inversion M; subst; [destruct Pm|].
    match goal with H : In _ [n] |- _ => destruct H as [<-|[]] end. eapply powerful_in; [apply IH; exists m; eauto|intros; right; assumption].
  - intros f p o c ts ns _ IH (m & M & Pm). inversion M; subst; [destruct Pm|].
    eapply powerful_in; [apply IH; eexists; split; [eassumption|exists m; eauto]|]. intros t I. right. right. apply in_or_app. auto.
  - intros p ts n _ IH (m & M & Pm). inversion M; subst; [destruct Pm|].
    eapply powerful_in; [apply IH; exists m; eauto|intros; right; assumption].
  - intros k o p ts1 ts2 x y _ _ IH1 _ IH2 (m & M & Pm). inversion M; subst.
    + exists (tk (TBin o) p). split; [apply in_or_app; right; left; reflexivity|]. left. destruct o; try destruct Pm; reflexivity.
    + eapply powerful_in; [apply IH1; exists m; eauto|]. intros t I. apply in_or_app; auto.
    + eapply powerful_in; [apply IH2; exists m; eauto|]. intros t I. apply in_or_app; right; right; exact I.
  - intros k ts n _ IH. exact IH.
  - intros (n & [] & _).
  - intros ts ns _ IH. exact IH.
  - intros ts n _ IH (n' & [<-|[]] & Hp). auto.
  - intros ts p ts' n ns _ IH1 _ IH2 (n' & [<-|I] & Hp).
    + eapply powerful_in; [apply IH1, Hp|]. intros t J. apply in_or_app; auto.
    + eapply powerful_in; [apply IH2; eauto|]. intros t J. apply in_or_app; right; right; exact J.
Qed.
Lemma line_power ts t : syntax_tree_new ts = Ok t -> has_power (st_root t) -> powerful ts.
Proof.
  intros E H. apply C09_parse_iff_grammar in E. inversion E; subst; cbn [st_root] in H; apply (proj1 derives_power _ _ _ ltac:(eassumption)) in H; [exact H|].
  eapply powerful_in; [exact H|]. intros u I. right. right. exact I.
Qed.

(** Commands and lines: the settings, the state and the answer. *)
Lemma same_command ord x c w a s : run_command Debug ord x c w a s = run_command Release ord x c w a s.
Proof.
  destruct c; cbn [run_command]; try reflexivity; unfold exec_histcap, exec_radix, exec_converttoradix, exec_precision, parse_radix_arg; rewrite ?same_int_list; reflexivity.
Qed.
Lemma agree_body ord x input id a s : agree2 (overflowing a input) (calculate_body Debug ord x input id a s) (calculate_body Release ord x input id a s).
Proof.
  unfold calculate_body, overflowing, is_expression. destruct (tokenize input (a_radix a)) as [[ts|name w]|e|p] eqn:T; try apply agree2_refl.
  - destruct (touch_all _ id s) as [s1 [u|e|p]]; try apply agree2_refl. destruct ts as [|t ts]; [apply agree2_refl|].
    destruct (syntax_tree_new (t :: ts)) as [tr|e|p] eqn:Tr; try apply agree2_refl.
    destruct (agree_tree a tr id s1) as [[(G & Hp) Hd]| <-]; [left|apply agree2_refl]. split.
    + split; [exact G|]. exists (t :: ts). split; [reflexivity|]. apply powerful_not, (line_power _ _ Tr Hp).
    + destruct (tree_execute Debug a tr id s1) as [s2 r]. cbn [snd] in Hd. subst r. reflexivity.
  - unfold execute_command. destruct (assoc _ _); [rewrite same_command|]; apply agree2_refl.
Qed.
Lemma agree_calculate ord x input se : agree2 (overflowing (s_args se) input) (calculate Debug ord x input se) (calculate Release ord x input se).
Proof.
  unfold calculate. destruct (s_inputs se) as [h|].
  - destruct (input_finished h (e_db (s_env se))) as [[h' db'] [id|e|p]]; try apply agree2_refl.
    destruct (agree_body ord x input id (s_args se) (mkEnv (e_vars (s_env se)) db')) as [[G Hd]| <-]; [left; split; [exact G|]|apply agree2_refl].
    destruct (calculate_body Debug _ _ _ _ _ _) as [[a1 s1] r]. exact Hd.
  - destruct (agree_body ord x input None (s_args se) (s_env se)) as [[G Hd]| <-]; [left; split; [exact G|]|apply agree2_refl].
    destruct (calculate_body Debug _ _ _ _ _ _) as [[a1 s1] r]. exact Hd.
Qed.
Lemma agree_one_shot ord a input : (overflowing a input /\ one_shot Debug ord a input = Calculate.Crash ArithOverflow) \/ one_shot Debug ord a input = one_shot Release ord a input.
Proof.
  unfold one_shot. destruct executor_new as [x|[]|p]; [|right; reflexivity].
  destruct (agree_calculate ord x input (mkSession a None (mkEnv None None))) as [[G ->]| <-]; [left; split; [exact G|reflexivity]|right; reflexivity].
Qed.

(** The screen and the editor. *)
Lemma agree_wrapped alt complete cols cursor start line : agree (~ fits_u16 (cursor / (cols - 2) + snd start))
  (display_wrapped Debug alt complete cols cursor start line) (display_wrapped Release alt complete cols cursor start line).
Proof.
  unfold display_wrapped. cbv zeta. change (List.length (repeat c_space (List.length PROMPT_STR))) with 2.
  destruct (Nat.ltb _ _); [apply agree_refl|]. destruct (Nat.eqb _ _); [apply agree_refl|].
  apply agree_bind; [apply agree_refl|intros q Hq]. apply agree_bind; [|intros; apply agree_refl].
  eapply agree_more; [|apply agree_u16]. unfold u16_try_from in Hq. destruct (N.ltb _ _) in Hq; [injection Hq as <-; auto|discriminate Hq].
Qed.
Lemma agree_display alt complete l h : agree (below_all_rows l) (display Debug alt complete l h) (display Release alt complete l h).
Proof.
  unfold display. apply agree_bind; [apply agree_refl|intros line _]. destruct (alt || complete)%bool; [|apply agree_refl].
  apply agree_bind; [apply agree_wrapped|intros; apply agree_refl].
Qed.

(** A stretch of a session: the state, the commands and how it stands. *)
Definition agree3 (P : Prop) (d r : ui * list tcmd * status) : Prop :=
  ((P \/ below_all_rows (u_line (fst (fst d)))) /\ snd d = Crashed ArithOverflow) \/ d = r.
Lemma agree3_refl (P : Prop) d : agree3 P d d. Proof. right; reflexivity. Qed.
Lemma agree_start (P : Prop) tm u : agree3 P (start_line Debug tm u) (start_line Release tm u).
Proof.
  unfold start_line. cbv zeta. destruct (agree_display (a_alternate_screen (u_args u)) false (mkLine 0 0 (fst (tm (u_count u))) (snd (tm (u_count u)))) (u_inputs u)) as [[G ->]| <-];
    [left; split; [right; exact G|reflexivity]|apply agree3_refl].
Qed.
Definition step_parts (ev : event) (u : ui) : Prop :=
  exists mods line, ev = EvKey KEnter mods /\ shown (u_inputs u) = Ok line /\ overflowing (u_args u) line.
Lemma agree_finish ord x tm u : agree3 (exists line, shown (u_inputs u) = Ok line /\ overflowing (u_args u) line) (finish_line Debug ord x tm u) (finish_line Release ord x tm u).
Proof.
  unfold finish_line, shown. cbv zeta. destruct (agree_display (a_alternate_screen (u_args u)) true (u_line u) (u_inputs u)) as [[G ->]| <-]; [left; split; [right; exact G|reflexivity]|].
  destruct (display Debug _ true _ _) as [[l out]|e|p]; try apply agree3_refl. destruct (current_line (u_inputs u)) as [input|e|p] eqn:Cl; try apply agree3_refl.
  destruct (agree_calculate (ord (u_count u)) x input (mkSession (u_args u) (Some (u_inputs u)) (mkEnv (Some (u_vars u)) (u_db u)))) as [[G Hd]| <-].
  - destruct (calculate Debug _ _ _ _) as [se r]. cbn [snd] in Hd. subst r. left. split; [left; exists input; auto|reflexivity].
  - destruct (calculate Debug _ _ _ _) as [se r]. destruct (render r) as [text|e|p]; try apply agree3_refl.
    match goal with |- agree3 ?P (let '(_, _) := start_line Debug tm ?u1 in _) _ => destruct (agree_start P tm u1) as [[G Hd]| <-] end; [left|apply agree3_refl].
    destruct (start_line Debug tm _) as [[u2 out3] st]. cbn [snd fst] in *. subst st. split; [exact G|reflexivity].
Qed.
Lemma agree_step ord x tm ev u : agree3 (step_parts ev u) (ui_step Debug ord x tm ev u) (ui_step Release ord x tm ev u).
Proof.
  unfold ui_step. cbv zeta. destruct (handle_event ev (u_line u) (u_inputs u) (u_db u)) as [[[l' h'] db'] act] eqn:He. destruct act; try apply agree3_refl.
  - destruct (agree_display (a_alternate_screen (u_args u)) false l' h') as [[G ->]| <-]; [left; split; [right; exact G|reflexivity]|apply agree3_refl].
  - apply enter_only in He as ((mods & ->) & -> & -> & ->). rewrite ui_eta. destruct (agree_finish ord x tm u) as [[[(line & A & B)|G] Hd]| <-]; [left|left|apply agree3_refl]; split; auto.
    left. exists mods, line. auto.
Qed.
(** Where the two runs part, after [first] and [ev]. *)
Lemma agree_events ord x tm evs : forall u, run_events Debug ord x tm evs u = run_events Release ord x tm evs u \/
  exists first ev rest u1 out1, evs = first ++ ev :: rest /\ run_events Debug ord x tm first u = (u1, out1, Waiting) /\
    (step_parts ev u1 \/ below_all_rows (u_line (fst (fst (ui_step Debug ord x tm ev u1))))) /\ snd (ui_step Debug ord x tm ev u1) = Crashed ArithOverflow.
Proof.
  induction evs as [|ev evs IH]; intros u; cbn [run_events]; [left; reflexivity|].
  destruct (agree_step ord x tm ev u) as [[G Hd]| <-].
  - right. exists [], ev, evs, u, []. repeat split; auto.
  - destruct (ui_step Debug ord x tm ev u) as [[u1 out] st] eqn:St. destruct st; try (left; reflexivity).
    destruct (IH u1) as [<-|(first & ev' & rest & u2 & out2 & -> & Ru & G & Hd)]; [left; reflexivity|right].
    exists (ev :: first), ev', rest, u2, (out ++ out2). split; [reflexivity|]. split; [|auto]. cbn [run_events]. rewrite St, Ru. reflexivity.
Qed.
Lemma agree_interactive ord x tm a db evs : interactive Debug ord x tm a db evs = interactive Release ord x tm a db evs \/
  exists first rest, evs = first ++ rest /\ snd (interactive Debug ord x tm a db first) = Crashed ArithOverflow /\
    interactive Debug ord x tm a db evs = interactive Debug ord x tm a db first /\
    (below_all_rows (u_line (fst (fst (interactive Debug ord x tm a db first)))) \/
     exists before mods line, first = before ++ [EvKey KEnter mods] /\ snd (interactive Debug ord x tm a db before) = Waiting /\
       shown (u_inputs (fst (fst (interactive Debug ord x tm a db before)))) = Ok line /\ overflowing (u_args (fst (fst (interactive Debug ord x tm a db before)))) line).
Proof.
  unfold interactive, interactive_start. match goal with |- context [start_line Debug tm ?u] => set (u0 := u) end. destruct (agree_start False tm u0) as [[G Hd]| <-].
  - right. exists [], evs. destruct (start_line Debug tm u0) as [[u1 out] st]. cbn [snd fst] in *. subst st. destruct G as [[]|G]. split; [reflexivity|]. split; [reflexivity|]. split; [reflexivity|]. left. exact G.
  - destruct (start_line Debug tm u0) as [[u1 out] st]. destruct st; try (left; reflexivity).
    destruct (agree_events ord x tm evs u1) as [<-|(first & ev & rest & u2 & out2 & -> & Ru & G & Hd)]; [left; reflexivity|right].
    destruct (ui_step Debug ord x tm ev u2) as [[u3 out3] st3] eqn:St. cbn [fst snd] in *. subst st3.
    assert (R1 : run_events Debug ord x tm (first ++ [ev]) u1 = (u3, out2 ++ out3, Crashed ArithOverflow)).
    { rewrite run_events_app, Ru. cbn [run_events]. rewrite St. reflexivity. }
    exists (first ++ [ev]), rest. split; [rewrite <- app_assoc; reflexivity|]. rewrite R1. cbn [fst snd]. split; [reflexivity|]. split.
    + change (ev :: rest) with ([ev] ++ rest). rewrite app_assoc, run_events_app, R1. reflexivity.
    + destruct G as [(mods & line & -> & Sh & Ov)|G]; [right|left; exact G]. exists first, mods, line. split; [reflexivity|]. rewrite Ru. auto.
Qed.
Lemma agree_main ord o m evs : o_input o = None -> main Debug ord o m evs = main Release ord o m evs \/
  exists first rest, evs = first ++ rest /\ parting ord o m first /\ out_ending (main Debug ord o m first) = Panicked ArithOverflow /\ main Debug ord o m evs = main Debug ord o m first.
Proof.
  intros Hi. destruct (starts_or o m) as [St|St].
  2: { left. rewrite !main_unfold, Hi. unfold terminal_starts in St. destruct (m_enable_raw m); cbn [negb]; [|reflexivity].
       destruct (a_alternate_screen (o_args o)), (m_enter_screen m); cbn [negb andb]; try reflexivity; exfalso; apply St; split; try reflexivity; congruence. }
  assert (Mu : forall pr es, main pr ord o m es = let '(file, a, cmds, e) := interactive_calc pr ord the_executor o m es in mkOutside file [] [] cmds (restore m a (mkModes true (a_alternate_screen (o_args o))) e) e).
  { intros pr es. rewrite main_unfold, Hi. destruct St as (A & B). rewrite A. cbn [negb]. destruct (a_alternate_screen (o_args o)); [rewrite (B eq_refl)|]; reflexivity. }
  rewrite !Mu. unfold interactive_calc at 1 2. cbv zeta. destruct (if o_no_db o then _ else _) as [file [e|[db|e|p]]] eqn:Op; try (left; reflexivity).
  destruct (agree_interactive ord the_executor (m_terminal m) (o_args o) db evs) as [->|(first & rest & -> & Cr & Eq & Why)]; [left; reflexivity|right].
  exists first, rest. split; [reflexivity|]. rewrite !Mu. unfold interactive_calc. cbv zeta. rewrite Op. rewrite Eq. split; [|split; [|reflexivity]].
  - destruct Why as [G|(before & mods & line & -> & _ & Sh & Ov)].
    + eapply at_a_row; [apply (session_is Debug ord o m file db first Op)|exact G].
    + eapply at_a_power; [apply (session_is Debug ord o m file db before Op)|exact Sh|exact Ov].
  - destruct (interactive Debug ord the_executor (m_terminal m) (o_args o) db first) as [[u c] st]. cbn [snd] in Cr. subst st. reflexivity.
Qed.
(** With a failing terminal. *)
Definition agree4 (d r : io_result) : Prop := snd d = Panicked ArithOverflow \/ d = r.
Lemma agree4_refl d : agree4 d d. Proof. right; reflexivity. Qed.
Lemma agree_io_start tm u fs : agree4 (io_start_line Debug tm u fs) (io_start_line Release tm u fs).
Proof.
  unfold io_start_line. destruct (io_use fs) as [f1 []]; [|apply agree4_refl]. destruct (io_use f1) as [f2 []]; [|apply agree4_refl].
  destruct (agree_start False tm u) as [[_ Hd]| <-]; [left|apply agree4_refl]. destruct (start_line Debug tm u) as [[u' cmds] st]. cbn [snd] in Hd. subst st. reflexivity.
Qed.
Lemma agree_io_finish ord x tm u fs : agree4 (io_finish_line Debug ord x tm u fs) (io_finish_line Release ord x tm u fs).
Proof.
  unfold io_finish_line. cbv zeta. destruct (agree_display (a_alternate_screen (u_args u)) true (u_line u) (u_inputs u)) as [[_ ->]| <-]; [left; reflexivity|].
  destruct (display Debug _ true _ _) as [[l out]|e|p]; try apply agree4_refl. destruct (io_send out fs) as [[f1 sent1] []]; [|apply agree4_refl].
  destruct (current_line (u_inputs u)) as [input|e|p]; try apply agree4_refl.
  destruct (agree_calculate (ord (u_count u)) x input (mkSession (u_args u) (Some (u_inputs u)) (mkEnv (Some (u_vars u)) (u_db u)))) as [[_ Hd]| <-].
  - destruct (calculate Debug _ _ _ _) as [se r]. cbn [snd] in Hd. subst r. left. reflexivity.
  - destruct (calculate Debug _ _ _ _) as [se r]. destruct (render r) as [text|e|p]; try apply agree4_refl.
    destruct (io_send (print_output _ text) f1) as [[f2 sent2] []]; [|apply agree4_refl].
    match goal with |- agree4 (let '(_, _) := io_start_line Debug tm ?u1 ?f in _) _ => destruct (agree_io_start tm u1 f) as [Hd| <-] end; [left|apply agree4_refl].
    destruct (io_start_line Debug tm _ _) as [[[f3 u2] out3] st]. cbn [snd] in Hd. subst st. reflexivity.
Qed.
Lemma agree_io_step ord x tm ev u fs : agree4 (io_step Debug ord x tm ev u fs) (io_step Release ord x tm ev u fs).
Proof.
  unfold io_step. cbv zeta. destruct (handle_event ev (u_line u) (u_inputs u) (u_db u)) as [[[l' h'] db'] []]; try apply agree4_refl.
  - apply agree_io_finish || (destruct (agree_display (a_alternate_screen (u_args u)) false l' h') as [[_ ->]| <-]; [left; reflexivity|apply agree4_refl]).
  - apply agree_io_finish || (destruct (agree_display (a_alternate_screen (u_args u)) false l' h') as [[_ ->]| <-]; [left; reflexivity|apply agree4_refl]).
Qed.
Lemma agree_io_events ord x tm evs : forall u fs, agree4 (io_events Debug ord x tm evs u fs) (io_events Release ord x tm evs u fs).
Proof.
  induction evs as [|ev evs IH]; intros u fs; cbn [io_events]; [apply agree4_refl|]. destruct (io_use fs) as [f1 []]; [|apply agree4_refl].
  destruct (agree_io_step ord x tm ev u f1) as [Hd| <-].
  - left. destruct (io_step Debug ord x tm ev u f1) as [[[f2 u1] out] st]. cbn [snd] in Hd. subst st. reflexivity.
  - destruct (io_step Debug ord x tm ev u f1) as [[[f2 u1] out] []]; try apply agree4_refl.
    destruct (IH u1 f2) as [Hd| <-]; [left|apply agree4_refl]. destruct (io_events Debug ord x tm evs u1 f2) as [[[f3 u2] out'] st]. exact Hd.
Qed.
Lemma agree_io_interactive ord x tm a db evs fs : agree4 (io_interactive Debug ord x tm a db evs fs) (io_interactive Release ord x tm a db evs fs).
Proof.
  unfold io_interactive. match goal with |- agree4 (match io_start_line Debug tm ?u0 fs with _ => _ end) _ => destruct (agree_io_start tm u0 fs) as [Hd| <-] end.
  - left. destruct (io_start_line Debug tm _ fs) as [[[f1 u1] out] st]. cbn [snd] in Hd. subst st. reflexivity.
  - destruct (io_start_line Debug tm _ fs) as [[[f1 u1] out] []]; try apply agree4_refl.
    destruct (agree_io_events ord x tm evs u1 f1) as [Hd| <-]; [left|apply agree4_refl]. destruct (io_events Debug ord x tm evs u1 f1) as [[[f2 u2] out'] st]. exact Hd.
Qed.
Lemma agree_io_main ord o m evs fs : out_ending (io_main Debug ord o m evs fs) = Panicked ArithOverflow \/ io_main Debug ord o m evs fs = io_main Release ord o m evs fs.
Proof.
  unfold io_main. destruct executor_new as [x|[]|p]; [|right; reflexivity]. destruct (o_input o) as [input|].
  - cbv zeta. destruct (agree_one_shot (ord 0) (o_args o) input) as [[_ ->]| <-]; [left|right]; reflexivity.
  - destruct (negb (m_enable_raw m)); [right; reflexivity|]. destruct (_ && _)%bool; [right; reflexivity|]. cbv zeta.
    assert (A : snd (io_interactive_calc Debug ord x o m evs fs) = Panicked ArithOverflow \/ io_interactive_calc Debug ord x o m evs fs = io_interactive_calc Release ord x o m evs fs).
    { unfold io_interactive_calc. cbv zeta. destruct (if o_no_db o then _ else _) as [file [e|[db|e|p]]]; try (right; reflexivity).
      destruct (agree_io_interactive ord x (m_terminal m) (o_args o) db evs fs) as [Hd| <-]; [left|right; reflexivity].
      destruct (io_interactive Debug _ _ _ _ _ _ _) as [[[f1 u] cmds] st]. cbn [snd] in Hd. subst st. reflexivity. }
    destruct A as [Hd| <-]; [left|right; reflexivity].
    destruct (io_interactive_calc Debug ord x o m evs fs) as [[[file a] cmds] e]. cbn [snd] in Hd. subst e. reflexivity.
Qed.
