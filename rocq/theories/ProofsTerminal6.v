(** ProofsTerminal6.v -- whole sessions on the alternate screen. *)
From Verif Require Import Base Position Num TokenTypes Errors Token SavedData Variables InputHistory
  SyntaxTree Commands Calculate Editor Sessions SpecEval SpecHistory SpecEditor SpecCalc SpecSession SpecMain SpecTerminal.
From Verif Require Import ProofsEval ProofsDb2 ProofsEditor ProofsEditor2 ProofsEditor3 ProofsEditor4 ProofsCalc4 ProofsCalc6 ProofsCalc7 ProofsCalc8 ProofsCommands2 ProofsSession ProofsKept ProofsTerminal ProofsTerminal2 ProofsTerminal3 ProofsTerminal4 ProofsTerminal5.
From Coq Require Import String Lia.
Local Open Scope nat_scope.
Local Open Scope list_scope.

(** ** Events: the start of the line stays, ignored events change nothing, only Enter finishes *)
Definition minds (l : line_state) (h : input_history) (ev : event) (r : ev_result) : Prop :=
  let '(l', h', _, act) := r in
  l_start l' = l_start l /\ (act = AIgnore -> l' = l /\ shown h' = shown h) /\ (act = AEnter -> exists mods, ev = EvKey KEnter mods).
Lemma handle_event_minds ev l h db : ih_ok h -> minds l h ev (handle_event ev l h db).
Proof.
  intros Hok.
  assert (Ig : forall db0, minds l h ev (l, h, db0, AIgnore)) by (intros; split; [reflexivity|split; [auto|discriminate]]).
  assert (Fa : forall h0 db0 e, minds l h ev (l, h0, db0, AFail e)) by (intros; split; [reflexivity|split; discriminate]).
  assert (Pa : forall h0 db0 e, minds l h ev (l, h0, db0, APanic e)) by (intros; split; [reflexivity|split; discriminate]).
  assert (Re : forall l0 h0 db0, l_start l0 = l_start l -> minds l h ev (l0, h0, db0, ARedraw)) by (intros; split; [assumption|split; discriminate]).
  assert (Ed : forall A (r : outcome runtime_error A) h0 db0 (k : A -> ev_result), (forall a, minds l h ev (k a)) -> minds l h ev (or_stop r l h0 db0 k)).
  { intros A r h0 db0 k K. destruct r as [a|e|p]; cbn [or_stop]; auto. }
  destruct ev as [code mods| |width|]; cbn [handle_event]; auto.
  destruct code as [c| | | | | | | | | |]; auto.
  - unfold handle_char. destruct (negb (is_ascii c)); [auto|].
    destruct (N.eqb mods CONTROL && (N.eqb c 100 || N.eqb c 122 || N.eqb c 99)); [split; [reflexivity|split; discriminate]|].
    destruct (N.eqb mods CONTROL && (N.eqb c 109 || N.eqb c 110)).
    { apply Ed. intros t. apply Ed. intros [q|]; auto. }
    destruct (N.eqb mods SHIFT); [apply Ed; auto|]. destruct (negb (N.eqb mods 0)); [auto|apply Ed; auto].
  - destruct (Nat.eqb (l_cursor l) 0); [auto|]. apply Ed; auto.
  - apply Ed. intros t. destruct (Nat.leb _ _); [auto|]. apply Ed; auto.
  - destruct (try_earlier h db) as [[h' db'] r] eqn:E. destruct (try_earlier_good _ _ _ _ _ Hok E) as (_ & _ & S).
    destruct r as [[|]|e|p]; [apply Ed; auto| |auto|auto].
    split; [reflexivity|]. split; [|discriminate]. intros _. split; [reflexivity|]. apply S. discriminate.
  - destruct (try_later h) as [h' b] eqn:E. destruct b; [apply Ed; auto|].
    unfold try_later in E. destruct (ih_index h); apply pair_equal_spec in E as [<- X]; [auto|discriminate X].
  - destruct (move_distance mods); auto.
  - destruct (move_distance mods); [|auto]. apply Ed; auto.
  - split; [reflexivity|]. split; [discriminate|]. intros _. exists mods. reflexivity.
Qed.

(** ** The state *)
Record alternated (w : nat) (u : ui) : Prop := mkAlternated
  { al_mode : a_alternate_screen (u_args u) = true; al_cols : l_cols (u_line u) = w;
    al_clean : clean_history (u_inputs u); al_db : clean_db (u_db u); al_good : ui_good u; al_ok : ui_ok u }.
(** The alternate screen shows [above] and the line of [u]. *)
Record painted (w h : nat) (above : list str) (u : ui) (g : grid) : Prop := mkPainted
  { pa_alt : alternated w u; pa_start : l_start (u_line u) = (0, List.length above);
    pa_on : onscreen g; pa_width : g_width g = w; pa_height : g_height g = h;
    pa_edits : exists line, shown (u_inputs u) = Ok line /\ edits_at g above line (l_cursor (u_line u)) }.

Lemma same_display pr l h l' out : display pr true false l h = Ok (l', out) -> l' = l.
Proof.
  unfold display. cbn [orb]. destruct (current_line h) as [t|e|p]; cbn [bind]; try discriminate.
  destruct (display_wrapped _ _ _ _ _ _ _) as [o|e|p]; cbn [bind]; try discriminate. intros E. apply ok_pair in E as [<- _]. reflexivity.
Qed.
Lemma key_live pr ord w h above ev u g u1 g1 : 3 <= w -> fits_u16 w -> fits_u16 h -> ~ resizes ev -> ~ newline_key ev -> (forall mods, ev <> EvKey KEnter mods) ->
  painted w h above u g -> live_step pr ord the_executor ev u g = (u1, g1, Waiting) ->
  (forall line e, shown (u_inputs u1) = Ok line -> echo w line e -> List.length above + List.length e <= h) -> painted w h above u1 g1.
Proof.
  intros H3 Hu Hh Hr Hk Hne [[Al Ec C D G (I & In)] Es On Gw Gh (line & El & Ed)] L Room.
  unfold live_step in L. cbv zeta in L. match type of L with context [answering ?a] => set (tm := answering a) in L end. clearbody tm.
  pose proof (topped_edits _ _ _ _ Ed On) as Tp. unfold ui_step in L.
  pose proof (handle_event_file ev (u_line u) (u_inputs u) (u_db u)) as F. pose proof (handle_event_cols ev (u_line u) (u_inputs u) (u_db u) Hr) as Co.
  pose proof (handle_event_clean ev (u_line u) (u_inputs u) (u_db u) Hk C D) as Cl. pose proof (handle_event_good ev (u_line u) (u_inputs u) (u_db u) I In) as Gd.
  pose proof (handle_event_minds ev (u_line u) (u_inputs u) (u_db u) I) as Mi.
  destruct (handle_event ev (u_line u) (u_inputs u) (u_db u)) as [[[l' h'] db'] act]. cbn [cleaned good_result minds] in *. destruct Gd as (I' & In' & _). destruct Mi as (Ms & Mi & Me).
  assert (D' : clean_db db').
  { intros sd' ->. destruct (u_db u) as [sd|] eqn:Eu; [|destruct F]. cbn in F. rewrite F. apply D. reflexivity. }
  assert (G' : forall l0, ui_good (mkUi (u_args u) (u_vars u) db' h' l0 (u_count u))) by (intros l0; destruct u; eapply good_file; [exact F|exact G]).
  assert (U' : alternated w (mkUi (u_args u) (u_vars u) db' h' l' (u_count u))) by (constructor; [exact Al|cbn; congruence|exact Cl|exact D'|apply G'|split; assumption]).
  destruct act; cbn [fst snd] in L.
  - apply pair_equal_spec in L as [L _]. apply pair_equal_spec in L as [<- <-]. destruct (Mi eq_refl) as [-> Sh].
    constructor; [exact U'|exact Es|exact On|exact Gw|exact Gh|]. exists line. cbn [u_inputs u_line]. split; [congruence|exact Ed].
  - rewrite Al in L. destruct (display pr true false l' h') as [[l'' out]|e|p] eqn:Di; [|apply pair_equal_spec in L as [_ L]; discriminate L..].
    apply pair_equal_spec in L as [L _]. apply pair_equal_spec in L as [<- <-]. pose proof (same_display _ _ _ _ _ Di) as ->.
    destruct In' as (t & Et & Hc). destruct (echo_exists w t H3) as (e & Ee). pose proof (Room t e Et Ee) as Fit. rewrite <- Gh in Fit, Hh.
    destruct (redraw_alternate pr w l' h' t g above e Et ltac:(congruence) ltac:(congruence) H3 Hu Hh Hc (clean_current _ _ Cl Et) Gw Tp Ee Fit) as (out' & Di' & Ed' & On' & Gw' & Gh').
    rewrite Di in Di'. apply ok_pair in Di' as [_ <-].
    constructor; [exact U'|cbn; congruence|exact On'|exact Gw'|congruence|]. exists t. split; [exact Et|exact Ed'].
  - destruct (Me eq_refl) as (mods & X). destruct (Hne _ X).
  - apply pair_equal_spec in L as [_ L]. discriminate L.
  - apply pair_equal_spec in L as [_ L]. discriminate L.
  - apply pair_equal_spec in L as [_ L]. discriminate L.
Qed.
(** What Enter does to the session, whatever the terminal. *)
Lemma enter_alternate pr ord w u line se' r : (forall n, iterates (ord n)) -> alternated w u ->
  shown (u_inputs u) = Ok line -> calculate pr (ord (u_count u)) the_executor line (session_of u) = (se', r) ->
  exists vs, e_vars (s_env se') = Some vs /\ let h' := mkIH (ih_internal (u_inputs u) ++ [line]) (ih_db (u_inputs u)) [Some []] 0 (ih_exhausted (u_inputs u)) in
    s_inputs se' = Some h' /\ forall l, l_cols l = w -> l_cursor l = 0 -> let u' := mkUi (s_args se') vs (e_db (s_env se')) h' l (S (u_count u)) in
    alternated w u' /\ session_of u' = se'.
Proof.
  intros Ho [Al Ec C D G (I & In)] Et Ca. unfold shown in Et. destruct G as (A & B & R).
  destruct (calculate_valid _ _ _ _ (session_of u) _ _ A B (Ho _) Ca) as (A' & B' & V).
  pose proof (calculate_real _ _ _ _ (session_of u) _ _ A B R Ca) as R'. pose proof (clean_current _ _ C Et) as Ht.
  destruct (e_vars (s_env se')) as [m'|] eqn:Em; [|exfalso; cbn in V; destruct V as [_ V]; discriminate (V eq_refl)]. exists m'. split; [reflexivity|].
  pose proof (line_screen _ _ _ (session_of u) _ _ Ca) as Al'. cbn [session_of s_args] in Al'. rewrite Al in Al'.
  pose proof (calculate_fresh _ _ _ _ _ _ _ _ _ _ Et Ca) as Fr. set (h' := mkIH _ _ _ _ _) in *. cbv zeta. split; [exact Fr|]. intros l Hl Hc.
  assert (Ss : session_of (mkUi (s_args se') m' (e_db (s_env se')) h' l (S (u_count u))) = se').
  { unfold session_of. cbn [u_args u_inputs u_vars u_db]. destruct se' as [a1 i1 [v1 d1]]. cbn in Em, Fr |- *. rewrite Em, Fr. reflexivity. }
  split; [|exact Ss]. constructor.
  - exact Al'.
  - exact Hl.
  - cbn [u_inputs]. destruct C as (C1 & C2 & C3). split; [cbn; apply Forall_app; split; [exact C1|constructor; [exact Ht|constructor]]|]. split; [exact C2|]. cbn. intros s [X|[]]. injection X as <-. intros [].
  - cbn [u_db].
    assert (K : k_real (fun d => program_file d /\ clean_file d) (e_db (s_env se'))).
    { apply (calculate_kept (fun d => program_file d /\ clean_file d) no_newline) with (pr := pr) (ord := ord (u_count u)) (x := the_executor) (input := line) (se := session_of u) (r := r); [|exact A|exact B| | |exact Ca].
      - intros c d r0 d' (Hp & Hcl) Hq Had Hno Hnp Htx. split; [eapply file_call; eauto|]. intros s Hs. destruct (call_texts _ _ _ _ Hp Hq Hno Hnp Htx s Hs) as [X| ->]; [apply Hcl; exact X|]. apply Had. reflexivity.
      - intros h line0 Eh El. cbn in Eh. injection Eh as <-. eapply clean_current; eauto.
      - intros sd Esd. cbn in Esd. split; [apply R; exact Esd|apply D; exact Esd]. }
    intros sd Esd. apply K. exact Esd.
  - split; [exact A'|]. assert (ui_env (mkUi (s_args se') m' (e_db (s_env se')) h' l (S (u_count u))) = s_env se') as Ee.
    { unfold ui_env. cbn [u_vars u_db]. destruct (s_env se') as [v d]. cbn in *. congruence. }
    rewrite Ee. split; assumption.
  - split.
    + cbn [u_inputs]. destruct (calculate_inputs pr (ord (u_count u)) the_executor line (u_args u) (u_inputs u) (mkEnv (Some (u_vars u)) (u_db u)) I) as (h2 & Eh & Hok').
      change (mkSession (u_args u) (Some (u_inputs u)) (mkEnv (Some (u_vars u)) (u_db u))) with (session_of u) in Eh. rewrite Ca in Eh. cbn [fst] in Eh. rewrite Fr in Eh. injection Eh as <-. exact Hok'.
    + exists []. split; [reflexivity|]. cbn [u_line]. lia.
Qed.
Lemma prompt_echo w : 3 <= w -> echo w [] [lit "# "].
Proof. intros H. exists [], []. split; [reflexivity|]. apply folded_short. cbn. lia. Qed.

(** Enter on the terminal: the line and its reply stay, the prompt is below. *)
Lemma start_alternate pr w h above tm u g : 3 <= w -> fits_u16 w -> fits_u16 h -> tm (u_count u) = ((0, List.length above), w) ->
  (forall l, l_cols l = w -> l_cursor l = 0 -> alternated w (mkUi (u_args u) (u_vars u) (u_db u) (u_inputs u) l (u_count u))) -> shown (u_inputs u) = Ok [] ->
  g_width g = w -> g_height g = h -> topped g above ->
  exists l out, start_line pr tm u = (mkUi (u_args u) (u_vars u) (u_db u) (u_inputs u) l (u_count u), out, Waiting) /\ l_cursor l = 0 /\
    painted w h above (mkUi (u_args u) (u_vars u) (u_db u) (u_inputs u) l (u_count u)) (grid_after out g).
Proof.
  intros H3 Hu Hh Et U Sh Gw Gh Tp. unfold start_line. cbv zeta. rewrite Et. cbn [fst snd]. set (l := mkLine 0 0 (0, List.length above) w). pose proof (U l eq_refl eq_refl) as Ul.
  assert (Al : a_alternate_screen (u_args u) = true) by exact (al_mode _ _ Ul). rewrite Al.
  rewrite <- Gh in Hh. assert (Tp' := Tp). destruct Tp' as (_ & _ & _ & Fit).
  destruct (redraw_alternate pr w l (u_inputs u) [] g above [lit "# "] Sh eq_refl eq_refl H3 Hu Hh (Nat.le_0_l _) (fun x => x) Gw Tp (prompt_echo w H3) ltac:(cbn; lia)) as (out & D & Ed & On & Gw' & Gh').
  rewrite D. exists l, out. split; [reflexivity|]. split; [reflexivity|]. constructor; [exact Ul|reflexivity|exact On|exact Gw'|congruence|].
  exists []. split; [exact Sh|exact Ed].
Qed.
Lemma enter_live pr ord w h above mods u g line se' r text e rows physr : (forall n, iterates (ord n)) -> 3 <= w -> fits_u16 w -> fits_u16 h -> painted w h above u g ->
  shown (u_inputs u) = Ok line -> calculate pr (ord (u_count u)) the_executor line (session_of u) = (se', r) -> reply_text r text ->
  echo w line e -> rows_of text rows -> folded_all w rows physr -> List.length above + List.length e + List.length physr < h ->
  exists u' g', live_step pr ord the_executor (EvKey KEnter mods) u g = (u', g', Waiting) /\ painted w h (above ++ e ++ physr) u' g' /\
    session_of u' = se' /\ u_count u' = S (u_count u) /\ l_cursor (u_line u') = 0 /\ ih_current (u_inputs u') = [Some []] /\ ih_index (u_inputs u') = 0.
Proof.
  intros Ho H3 Hu Hh [Alt Es On Gw Gh (line0 & El & Ed)] Et Ca Rt Ee Rw Fo Fit. assert (line0 = line) as -> by congruence. clear El.
  pose proof (topped_edits _ _ _ _ Ed On) as Tp. destruct (enter_alternate pr ord w u line se' r Ho Alt Et Ca) as (vs & Ev & Ein & U').
  pose proof (al_ok _ _ Alt) as (_ & (t & Et' & Hc)). assert (t = line) as -> by congruence. clear Et'.
  rewrite <- Gh in Hh, Fit.
  destruct (finish_grid pr w (u_line u) line g above e text rows physr (al_cols _ _ Alt) Es H3 Hu Hh Hc (clean_current _ _ (al_clean _ _ Alt) Et) Gw Tp Ee Rw Fo Fit) as (out1 & D & Tp1 & Cu1 & Gw1 & Gh1).
  cbv zeta in *. set (g1 := grid_after (out1 ++ print_output true text) g) in *.
  set (h' := mkIH _ _ _ _ _) in *.
  assert (St : forall tm, ui_step pr ord the_executor tm (EvKey KEnter mods) u =
    let '(u'', out3, st) := start_line pr tm (mkUi (s_args se') vs (e_db (s_env se')) h' (u_line u) (S (u_count u))) in (u'', out1 ++ print_output true text ++ out3, st)).
  { intros tm. unfold ui_step. cbn [handle_event]. replace (mkUi (u_args u) (u_vars u) (u_db u) (u_inputs u) (u_line u) (u_count u)) with u by (destruct u; reflexivity).
    unfold finish_line. cbv zeta. rewrite (al_mode _ _ Alt). unfold display. unfold shown in Et. rewrite Et. cbn [bind orb]. rewrite D. cbn [bind].
    change (mkSession (u_args u) (Some (u_inputs u)) (mkEnv (Some (u_vars u)) (u_db u))) with (session_of u). rewrite Ca.
    rewrite (proj1 (reply_render _ _) Rt), Ev, Ein. reflexivity. }
  assert (As : snd (fst (ui_step pr ord the_executor no_width (EvKey KEnter mods) u)) = out1 ++ print_output true text).
  { rewrite St. unfold start_line. cbv zeta. cbn [u_args u_vars u_db u_inputs u_count no_width fst snd].
    pose proof (al_mode _ _ (proj1 (U' (mkLine 0 0 (0, 0) w) eq_refl eq_refl))) as Al'. cbn [u_args] in Al'. rewrite Al'. change (display pr true false (mkLine 0 0 (0, 0) 0) h') with (@Err runtime_error (line_state * list tcmd) window_too_narrow). cbn iota beta. cbn [fst snd].
    rewrite app_nil_r. reflexivity. }
  unfold live_step. cbv zeta. rewrite As, St. fold g1.
  destruct (start_alternate pr w (g_height g) (above ++ e ++ physr) (answering g1) (mkUi (s_args se') vs (e_db (s_env se')) h' (u_line u) (S (u_count u))) g1 H3 Hu Hh) as (l & out3 & S3 & Lc & P3).
  - unfold answering. rewrite Cu1, Gw1. reflexivity.
  - intros l Hl Hlc. cbn [u_args u_vars u_db u_inputs u_count]. exact (proj1 (U' l Hl Hlc)).
  - reflexivity.
  - exact Gw1.
  - exact Gh1.
  - exact Tp1.
  - rewrite S3. cbn [u_args u_vars u_db u_inputs u_count] in P3 |- *. eexists _, _. split; [reflexivity|]. rewrite (app_assoc out1), grid_app. fold g1. split; [rewrite <- Gh; exact P3|].
    split; [exact (proj2 (U' l (al_cols _ _ (pa_alt _ _ _ _ _ P3)) Lc))|]. split; [reflexivity|]. split; [exact Lc|]. split; reflexivity.
Qed.
