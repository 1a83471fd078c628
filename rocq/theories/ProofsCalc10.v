(** ProofsCalc10.v -- one-shot mode, settings under expression lines, exact replies. *)
From Verif Require Import SpecPrint Base Position Num TokenTypes Errors Token SavedData Variables InputHistory
  SyntaxTree Commands Calculate Sessions SpecGrammar SpecEval SpecHistory SpecEditor SpecCalc.
From Verif Require Import ProofsNum ProofsEval ProofsEval2 ProofsParse ProofsParse2 ProofsParse3
  ProofsDb ProofsCalc ProofsCalc2 ProofsCalc3 ProofsCalc4 ProofsCalc5 ProofsCalc6 ProofsCalc9.
From Coq Require Import String Lia.
Local Open Scope nat_scope.
Local Open Scope list_scope.

(** ** One-shot mode reports no database failure *)
Lemma int_list_radix_failure pr arguments e : parse_radix_arg pr arguments = Err (RuntimeError e) -> False.
Proof.
  unfold parse_radix_arg. destruct (tokenize_int_list _ _ _) as [[|i [|j l]]|e'|p]; try discriminate.
  destruct (Z.ltb _ _); [discriminate|]. destruct (Z.ltb _ _); discriminate.
Qed.
Lemma check_precision_failure a p m e : check_precision a p m = Err (RuntimeError e) -> False.
Proof.
  unfold check_precision. destruct (u8_try_from _); [|discriminate].
  destruct m as [z|]; [destruct (u8_try_from _)|]; cbn [bind]; try discriminate; destruct (N.ltb _ _); discriminate.
Qed.
Lemma ptrim_no_err {E} s e : ptrim s = @Err E _ e -> False.
Proof. unfold ptrim. cbv zeta. repeat (match goal with |- context [match ?x with _ => _ end] => destruct x end; cbn [bind]); try discriminate. Qed.
Lemma command_no_runtime pr ord x c arguments a a' s' e : run_command pr ord x c arguments a nobody = (a', s', Err (RuntimeError e)) -> False.
Proof.
  intros E. destruct c; cbn [run_command] in E.
  - unfold exec_help in E. destruct (ptrim arguments) as [al|e'|p] eqn:P; [|destruct (ptrim_no_err _ _ P)|discriminate E].
    destruct (pd_value al); [discriminate E|]. destruct (assoc _ _); discriminate E.
  - unfold exec_reloadvar in E. destruct (tokenize_variable_list _); discriminate E.
  - unfold exec_purgevar in E. destruct (tokenize_variable_list _); discriminate E.
  - unfold exec_histcap in E. cbn [nobody e_db] in E. destruct (tokenize_int_list _ _ _) as [[|i [|j l]]|e'|p]; try discriminate E. destruct (validate_max_history_size _); discriminate E.
  - unfold exec_bool_setting, cmd_done in E. cbv zeta in E. destruct (trim _); [discriminate E|]. destruct (_ || _); [discriminate E|]. destruct (_ || _); discriminate E.
  - unfold exec_radix, cmd_done in E. destruct (parse_radix_arg pr arguments) as [[v|]|e'|p] eqn:P; try discriminate E.
    apply pair_equal_spec in E as [_ E]. injection E as ->. exact (int_list_radix_failure _ _ _ P).
  - unfold exec_converttoradix, cmd_done in E. destruct (str_eqb _ _); [discriminate E|]. destruct (parse_radix_arg pr arguments) as [[v|]|e'|p] eqn:P; try discriminate E.
    apply pair_equal_spec in E as [_ E]. injection E as ->. exact (int_list_radix_failure _ _ _ P).
  - unfold exec_bool_setting, cmd_done in E. cbv zeta in E. destruct (trim _); [discriminate E|]. destruct (_ || _); [discriminate E|]. destruct (_ || _); discriminate E.
  - unfold exec_bool_setting, cmd_done in E. cbv zeta in E. destruct (trim _); [discriminate E|]. destruct (_ || _); [discriminate E|]. destruct (_ || _); discriminate E.
  - unfold exec_precision, cmd_done in E. cbv zeta in E.
    destruct (tokenize_int_list _ _ _) as [[|i [|j [|k l]]]|e'|p]; try discriminate E.
    + destruct (check_precision a i None) as [[p1 e1]|e'|p] eqn:P; try discriminate E. apply pair_equal_spec in E as [_ E]. injection E as ->. exact (check_precision_failure _ _ _ _ P).
    + destruct (check_precision a i (Some j)) as [[p1 e1]|e'|p] eqn:P; try discriminate E. apply pair_equal_spec in E as [_ E]. injection E as ->. exact (check_precision_failure _ _ _ _ P).
Qed.
Lemma meaning_no_runtime pr a s : e_db s = None ->
  (forall n r, meaning (var_result s) (power_with pr a) n r -> forall e, r <> Fails (RuntimeError e)) /\
  (forall ns qs, meanings (var_result s) (power_with pr a) ns qs -> True) /\
  (forall ns r, first_stop (var_result s) (power_with pr a) ns r -> forall e, r <> Fails (RuntimeError e)).
Proof.
  intros Hd. assert (HP : forall p x y r e, power_with pr a p x y r -> r <> Fails (RuntimeError e)).
  { intros p x y r e P. unfold power_with in P. destruct (digits_kept pr a); [|subst r; discriminate].
    destruct P as [P|(q & -> & _)]; [|discriminate]. inversion P; subst; discriminate. }
  apply meaning_mutind; intros; auto; try discriminate.
  - match goal with H : var_result _ _ _ _ |- _ => inversion H; subst end; try discriminate. congruence.
  - match goal with H : unary _ _ _ _ _ |- _ => inversion H; subst end; try discriminate. eapply HP. eassumption.
  - match goal with H : binary _ _ _ _ _ _ |- _ => inversion H; subst end; try discriminate. eapply HP. eassumption.
Qed.
Lemma reply_no_runtime pr a s ts e : e_db s = None -> line_reply pr a s ts (Err (RuntimeError e)) -> False.
Proof.
  intros Hd L. inversion L as [|n w text D M Cw F E|n e' D M E|n q D M E|z n q0 q1 A _ _ E|text0 p0 _ N C0 E|e' N E]; subst; try contradiction; try discriminate.
  exact (proj1 (meaning_no_runtime pr a s Hd) n _ M e eq_refl).
Qed.
Lemma one_shot_no_runtime pr ord a input e : valid_settings a -> one_shot pr ord a input <> MainError e.
Proof.
  intros Ha. unfold one_shot. rewrite executor_new_ok.
  destruct (calculate pr ord the_executor input _) as [se' r] eqn:C. cbn [snd].
  destruct r as [t|[m|e']|p]; try discriminate. intros E0. injection E0 as ->. exfalso.
  destruct (tokenize input (a_radix a)) as [[ts|name arguments]|e'|p] eqn:T.
  - assert (Hn : env_ok nobody) by (split; discriminate).
    destruct (calculate_expression _ _ _ _ _ _ _ _ (Ha : valid_settings (s_args (mkSession a None nobody))) Hn T C) as (_ & _ & [(_ & _ & h & E & _)|(_ & L & _)]); [discriminate E|].
    exact (reply_no_runtime _ _ _ _ _ (eq_refl : e_db (after_recording (mkSession a None nobody)) = None) L).
  - unfold calculate in C. cbn [s_inputs s_args s_env] in C. unfold calculate_body in C. rewrite T in C. unfold execute_command in C.
    destruct (assoc _ _) as [c|]; [|discriminate C].
    change (mkEnv None None) with nobody in C. destruct (run_command pr ord the_executor c arguments a nobody) as [[a1 s1] [[m t]|e'|p]] eqn:R.
    + assert (s1 = nobody) as ->.
      { eapply (execute_nobody pr ord the_executor (mkPositioned (command_name c) (mkPos 0 0)) arguments a). unfold execute_command.
        replace (assoc _ _) with (Some c); [exact R|]. symmetry. apply resolve_names. left. reflexivity. }
      rewrite touch_nobody in C. discriminate C.
    + apply pair_equal_spec in C as [_ C]. injection C as ->. exact (command_no_runtime _ _ _ _ _ _ _ _ _ R).
    + discriminate C.
  - unfold calculate in C. cbn [s_inputs s_args s_env] in C. unfold calculate_body in C. rewrite T in C. discriminate C.
  - unfold calculate in C. cbn [s_inputs s_args s_env] in C. unfold calculate_body in C. rewrite T in C. discriminate C.
Qed.

(** ** Settings *)
Lemma expression_settings pr ord x input se se' r :
  (forall name arguments, tokenize input (a_radix (s_args se)) <> Ok (PCommand name arguments)) ->
  calculate pr ord x input se = (se', r) -> s_args se' = s_args se.
Proof.
  intros N C. destruct (calculate_cases _ _ _ _ _ _ _ C) as [(A & _)|(id & B & _)]; [exact A|].
  unfold calculate_body in B. destruct (tokenize input (a_radix (s_args se))) as [[ts|name arguments]|e|p] eqn:T; [|destruct (N _ _ eq_refl)| |].
  2,3: apply pair_equal_spec in B as [B _]; apply pair_equal_spec in B as [<- _]; reflexivity.
  destruct (touch_all _ _ _) as [s1 [u|e|p]]; [|apply pair_equal_spec in B as [B _]; apply pair_equal_spec in B as [<- _]; reflexivity..].
  destruct ts as [|t ts]; [apply pair_equal_spec in B as [B _]; apply pair_equal_spec in B as [<- _]; reflexivity|].
  destruct (syntax_tree_new (t :: ts)) as [tr|e|p]; [|apply pair_equal_spec in B as [B _]; apply pair_equal_spec in B as [<- _]; reflexivity..].
  destruct (tree_execute pr (s_args se) tr id s1) as [s2 r2]. apply pair_equal_spec in B as [B _]. apply pair_equal_spec in B as [<- _]. reflexivity.
Qed.

(** ** Exact replies *)
Lemma nth_no_err {E A} (l : list A) i e : nth_ok l i = @Err E _ e -> False.
Proof. unfold nth_ok. destruct (nth_error l i); discriminate. Qed.
Lemma current_no_err {E} h e : current_line h = @Err E _ e -> False.
Proof.
  unfold current_line. destruct (nth_ok (ih_current h) (ih_index h)) as [[i|]|e'|p] eqn:N; cbn [bind]; try discriminate; [|apply nth_no_err in N as []].
  destruct (Nat.leb _ _); apply nth_no_err.
Qed.
Lemma exact_reply pr ord x input se se' r ts n k res :
  valid_settings (s_args se) -> env_ok (s_env se) -> is_expression (a_radix (s_args se)) input ts ->
  digits_kept pr (s_args se) = Some k -> no_faults (after_recording se) ->
  derives 5 ts n \/ ((exists y, assignment ts y n) /\ e_vars (s_env se) <> None) ->
  meaning (var_result (after_recording se)) power_exact n res ->
  calculate pr ord x input se = (se', r) ->
  (exists e, r = Err (RuntimeError e) /\ e_db (s_env se) <> None) \/
  (exists h p, s_inputs se = Some h /\ snd (input_finished h (e_db (s_env se))) = Panic p /\ r = Panic p) \/
  match res with
  | Value q => exists v text, (v == q)%Q /\ canon v /\ result_text (s_args se) v text /\ r = Ok text
  | Fails e => r = Err e
  | Crashes => exists p, r = Panic p
  end.
Proof.
  intros Ha Hs T Hk Hf D M C. destruct (recording_ok se Hs) as (Rok & Rv & Rn & _).
  assert (HL : forall x p r r', var_result (after_recording se) x p r -> var_result (after_recording se) x p r' -> same_result r r')
    by (intros; eapply var_result_det; eauto).
  assert (HP : forall p x y x' y' r r', (x == x')%Q -> (y == y')%Q -> power_exact p x y r -> power_with pr (s_args se) p x' y' r' -> same_result r r').
  { intros p x0 y x' y' r0 r' Ex Ey P P'. unfold power_with in P'. rewrite Hk in P'. eapply power_det; [exact Ex|exact Ey|exact P|exact P']. }
  assert (Det : forall res', meaning (var_result (after_recording se)) (power_with pr (s_args se)) n res' -> same_result res res') by (intros res' M'; exact (proj1 (meaning_det _ _ _ _ HL HP) n res M _ M')).
  assert (U : forall n', derives 5 ts n' \/ (exists y, assignment ts y n') -> n' = n).
  { assert (Ln : exists t, line_tree ts t /\ st_root t = n).
    { destruct D as [D|((y & p & q & rest & -> & D) & _)]; [exists (mkTree None n)|exists (mkTree (Some (mkPositioned y p)) n)]; (split; [constructor; exact D|reflexivity]). }
    destruct Ln as (t & Lt & Et). intros n' D'.
    assert (Ln' : exists t', line_tree ts t' /\ st_root t' = n').
    { destruct D' as [D'|(y & p & q & rest & -> & D')]; [exists (mkTree None n')|exists (mkTree (Some (mkPositioned y p)) n')]; (split; [constructor; exact D'|reflexivity]). }
    destruct Ln' as (t' & Lt' & Et'). rewrite <- Et, <- Et'. f_equal. eapply line_tree_unique; eassumption. }
  assert (Ln : exists t, line_tree ts t).
  { destruct D as [D|((y & p & q & rest & -> & D) & _)]; [exists (mkTree None n)|exists (mkTree (Some (mkPositioned y p)) n)]; constructor; exact D. }
  destruct (calculate_cases _ _ _ _ _ _ _ C) as [(_ & _ & h & h' & db' & o & Eh & _ & F & W)|(id & B & Hid & Hi)].
  { destruct W as [(e & -> & ->)|(p & -> & ->)].
    - left. exists e. split; [reflexivity|]. unfold input_finished in F. destruct (current_line h) as [|e1|] eqn:W; [destruct (e_db (s_env se)); [discriminate|apply pair_equal_spec in F as [_ F]; discriminate F]| |].
      + apply current_no_err in W as [].
      + apply pair_equal_spec in F as [_ F]. discriminate F.
    - right; left. exists h, p. rewrite F. auto. }
  destruct (calculate_expression _ _ _ _ _ _ _ _ Ha Hs T C) as (_ & _ & [(_ & _ & h & Eh & Nf)|(_ & L & _)]).
  { rewrite Eh in Hi. destruct Hi as (h' & db' & _ & F). rewrite F in Nf. destruct (Nf id eq_refl). }
  inversion L as [E|n' w text D' M' Cw F E|n' e D' M' E|n' q D' M' E|z n' q0 q1 A _ V E|text0 p0 _ N C0 E|e N E]; subst r.
  - subst ts. destruct Ln as (t & Lt). exfalso. inversion Lt; subst. match goal with H : derives 5 [] _ |- _ => exact (proj1 derives_nonempty _ _ _ H eq_refl) end.
  - right; right. assert (n' = n) as -> by (apply U; destruct D' as [D'|(y & D' & _)]; eauto). specialize (Det _ M'). destruct res as [q| |]; cbn in Det; try contradiction.
    exists w, text. split; [symmetry; exact Det|]. auto.
  - right; right. assert (n' = n) as -> by (apply U; exact D'). specialize (Det _ M'). destruct res as [q|e'|]; cbn in Det; try contradiction. congruence.
  - right; right. assert (n' = n) as -> by (apply U; exact D'). specialize (Det _ M'). destruct res as [q'|e'|]; cbn in Det; try contradiction. eauto.
  - exfalso. destruct D as [D|(_ & D)]; [|apply D; rewrite <- Rv; exact V].
    destruct A as (p & q & rest & -> & A). 
    pose proof (line_tree_unique _ _ _ (lt_expression _ _ D) (lt_assignment _ _ _ _ _ A)) as X. discriminate X.
  - destruct Ln as (t & Lt). destruct (N t Lt).
  - left. exists e. split; [reflexivity|]. intros X. apply N. apply Rn. exact X.
Qed.

Lemma syntax_line pr ord x input se se' r ts :
  valid_settings (s_args se) -> env_ok (s_env se) -> is_expression (a_radix (s_args se)) input ts ->
  ts <> [] -> (forall t, ~ line_tree ts t) ->
  calculate pr ord x input se = (se', r) ->
  (exists e, r = Err (RuntimeError e) /\ e_db (s_env se) <> None) \/
  (exists h p, s_inputs se = Some h /\ snd (input_finished h (e_db (s_env se))) = Panic p /\ r = Panic p) \/
  exists text p, r = Err (InputError (mkMP text (Some p))) /\ SpecSyntax.syntax_complaint ts text p.
Proof.
  intros Ha Hs T Ne Nt C. destruct (recording_ok se Hs) as (Rok & Rv & Rn & _).
  assert (U : forall n', ~ (derives 5 ts n' \/ (exists y, assignment ts y n'))).
  { intros n' [D|(y & p & q & rest & -> & D)]; [exact (Nt _ (lt_expression _ _ D))|exact (Nt _ (lt_assignment _ _ _ _ _ D))]. }
  destruct (calculate_cases _ _ _ _ _ _ _ C) as [(_ & _ & h & h' & db' & o & Eh & _ & F & W)|(id & B & Hid & Hi)].
  { destruct W as [(e & -> & ->)|(p & -> & ->)].
    - left. exists e. split; [reflexivity|]. unfold input_finished in F. destruct (current_line h) as [|e1|] eqn:W; [destruct (e_db (s_env se)); [discriminate|apply pair_equal_spec in F as [_ F]; discriminate F]| |].
      + apply current_no_err in W as [].
      + apply pair_equal_spec in F as [_ F]. discriminate F.
    - right; left. exists h, p. rewrite F. auto. }
  destruct (calculate_expression _ _ _ _ _ _ _ _ Ha Hs T C) as (_ & _ & [(_ & _ & h & Eh & Nf)|(_ & L & _)]).
  { rewrite Eh in Hi. destruct Hi as (h' & db' & _ & F). rewrite F in Nf. destruct (Nf id eq_refl). }
  inversion L as [E|n' w text D' M' Cw F E|n' e D' M' E|n' q D' M' E|z n' q0 q1 A _ V E|text0 p0 _ N C0 E|e N E]; subst r.
  - destruct (Ne E).
  - exfalso. apply (U n'). destruct D' as [D'|(y & D' & _)]; eauto.
  - destruct (U n' D').
  - destruct (U n' D').
  - exfalso. apply (U n'). eauto.
  - right; right. eauto.
  - left. exists e. split; [reflexivity|]. intros X. apply N. apply Rn. exact X.
Qed.
