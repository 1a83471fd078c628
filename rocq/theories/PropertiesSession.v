(** PropertiesSession.v -- whole sessions as the user sees them: C66-C69. *)
From Verif Require Import ProofsPrint4 Base Position Num TokenTypes Errors Token SavedData Variables InputHistory
  SyntaxTree Commands Calculate Editor Sessions SpecGrammar SpecEval SpecPrint SpecHistory SpecEditor SpecCalc SpecSession.
From Verif Require Import ProofsEval ProofsEditor2 ProofsEditor4 ProofsCalc4 ProofsCalc7 ProofsCalc8 ProofsCalc9 ProofsCalm ProofsCalm2 ProofsPrint3
  ProofsSession ProofsSession2 PropertiesEditor PropertiesCalc.
From Coq Require Import String Lia.
Local Open Scope nat_scope.
Local Open Scope list_scope.

(** ** C66 *)
(** In inline mode Enter leaves the submitted line on the screen (folded to the width), below it the
    rows of the reply -- the answer, or the error with its prefix --, below that a fresh prompt with the
    cursor after it and nothing else; rows already on the screen stay.  The session then continues with
    what interpreting that very line made of it, and an empty line. *)
Theorem C66_enter_prints_the_reply : forall pr ord tm mods u line se' r text,
  (forall n, iterates (ord n)) ->
  valid_settings (u_args u) -> env_ok (s_env (session_of u)) -> real_database (s_env (session_of u)) ->
  shown (u_inputs u) = Ok line -> l_cursor (u_line u) <= List.length line -> ~ In c_newline line ->
  a_alternate_screen (u_args u) = false ->
  3 <= l_cols (u_line u) -> fits_u16 (l_cols (u_line u)) ->
  fits_u16 (l_cursor (u_line u) / (l_cols (u_line u) - 2) + snd (l_start (u_line u))) ->
  6 <= snd (tm (S (u_count u))) -> fits_u16 (snd (tm (S (u_count u)))) ->
  calculate pr (ord (u_count u)) the_executor line (session_of u) = (se', r) -> reply_text r text ->
  exists u' out e rows, ui_step pr ord the_executor tm (EvKey KEnter mods) u = (u', out, Waiting) /\
    session_of u' = se' /\ shown (u_inputs u') = Ok [] /\ l_cursor (u_line u') = 0 /\
    echo (l_cols (u_line u)) line e /\ rows_of text rows /\
    forall s, screen_after out s = mkScreen (sc_above s ++ e ++ rows) (lit "# ") 2.
Proof.
  intros pr ord tm mods u line se' r text Ho A B R L Hc Hn Hi H3 Hu Hf H6 Hu2 C T.
  destruct (enter_step pr ord tm u line mods se' r text Ho (conj A (conj B R)) L Hc Hn Hi H3 Hu Hf H6 Hu2 C T)
    as (u' & out & e & rows & E & Co & S & _ & _ & Ec & Rw & P).
  exists u', out, e, rows. split; [exact E|]. split; [exact S|]. split; [exact (composing_line _ _ _ Co)|].
  split; [exact (co_cursor _ _ _ Co)|]. auto.
Qed.
Print Assumptions C66_enter_prints_the_reply.
(** How a reply is worded: answers as they are, errors in the line after "Error: ", failures of the
    environment after "Runtime Error: "; only a crash is not printed. *)
Theorem C66_every_reply_has_one_text : forall r,
  (exists text, reply_text r text /\ forall text', reply_text r text' -> text' = text) \/ exists p, r = Panic p.
Proof.
  intros [s|[m|e]|p]; [left|left|left|right; eauto]; eexists; (split; [constructor|]); intros t H; inversion H; reflexivity.
Qed.
Print Assumptions C66_every_reply_has_one_text.
(** The rows of a text, and the pieces shown, are determined. *)
Theorem C66_rows_unique : forall text rows rows', rows_of text rows -> rows_of text rows' -> rows = rows'.
Proof. intros text rows rows' (A1 & A2 & A3) (B1 & B2 & B3). apply rows_unique; auto. congruence. Qed.
Print Assumptions C66_rows_unique.
Definition screen_of (r : ui * list tcmd * status) : screen := screen_after (snd (fst r)) blank.
(** A wide value in a narrow window, an error, and a reply of several rows. *)
Example C66_example :
  screen_of (interactive Debug (fun _ => order) the_executor (fun _ => ((0, 0), 10)) a0 (Some disk0) (typing_lines [lit "12345678+1"; lit "2 +"; lit "/reloadvar $x"])) =
  mkScreen [lit "# 12345678"; lit "  +1"; lit "12345679"; lit "# 2 +"; lit "Error: Addition Operator (+) is missing a required operand";
            lit "# /reloadv"; lit "  ar $x"; lit "$x unchanged"] (lit "# ") 2.
Proof. vm_compute. reflexivity. Qed.

(** ** C67 *)
(** A session whose database works (no call fails for reasons outside the program) stays one, whatever
    line is submitted, and no line is ever answered with a runtime error. *)
Theorem C67_no_runtime_errors : forall pr ord x input se se' r,
  working_session se -> iterates ord -> calculate pr ord x input se = (se', r) ->
  working_session se' /\ forall e, r <> Err (RuntimeError e).
Proof. exact working_calculate. Qed.
Print Assumptions C67_no_runtime_errors.
(** The interactive program: after any keystrokes, resizes and other events, on any terminal, the
    session is a working one, and if the program has ended with an error it is the display's (window
    too narrow; a column or row that does not fit in 16 bits) or that of a paste. *)
Theorem C67_interactive_session_works : forall pr ord x tm a db evs, (forall n, iterates (ord n)) ->
  valid_settings a -> working_database db ->
  let '(u, _, st) := interactive pr ord x tm a db evs in
  working_session (session_of u) /\ forall e, st = Failed e -> display_failure e \/ e = paste_error.
Proof.
  intros pr ord x tm a db evs Ho Ha Hd. pose proof (interactive_steady pr ord x tm a db evs Ho Ha Hd) as (U & Hs).
  pose proof (interactive_history pr ord x tm a db evs) as Hh.
  destruct (interactive pr ord x tm a db evs) as [[u out] st]. cbn [fst snd] in *.
  destruct U as ((A & B & R) & (N & _)). split; [|exact Hs]. split; [exact A|]. split; [exact B|]. split; [exact R|]. split; [exact N|exact Hh].
Qed.
Print Assumptions C67_interactive_session_works.
Example C67_example : working_database (Some disk0) /\ working_session (with_line (lit "$x = 3") se0) /\
  map (fun l => snd (enter (lit l) (afterwards [lit "$x=7"; lit "$y=$x/2"] se0))) ["$x+$y"; "/histcap 1"; "/purgevar $x"; "/reloadvar $y"; "/nope"; "$z"]%string =
  [Ok (lit "10.5"); Ok (lit "Done"); Ok (lit "Done"); Ok (lit "Set $y to 7/2");
   Err (InputError (mkMP (lit "No such command: 'nope'") (Some (mkPos 0 5)))); Err (InputError (mkMP (lit "Unknown variable: $z") (Some (mkPos 0 2))))].
Proof.
  split; [intros sd [= <-]; split; [exact disk0_file|intros []]|]. split.
  - split; [exact a0_ok|]. split; [exact se0_ok|]. split; [intros sd [= <-]; exact disk0_file|]. split; [intros sd [= <-] []|].
    exists true, (type_text 0 (lit "$x = 3")). split; [|reflexivity]. apply placed_ok. vm_compute. reflexivity.
  - vm_compute. reflexivity.
Qed.

(** ** C68 *)
(** The answer to an expression line (or assignment), in a working session: the text is the one the output
    settings prescribe for a value of the expression. *)
Theorem C68_answer_is_the_value_in_the_chosen_format : forall pr ord x input se se' text ts,
  working_session se -> is_expression (a_radix (s_args se)) input ts -> ts <> [] ->
  calculate pr ord x input se = (se', Ok text) ->
  exists n v, (derives 5 ts n \/ exists y, assignment ts y n) /\
    meaning (var_result (after_recording se)) (power_with pr (s_args se)) n (Value v) /\ result_text (s_args se) v text.
Proof. exact working_answer. Qed.
Print Assumptions C68_answer_is_the_value_in_the_chosen_format.
(** If the rules of arithmetic give the expression the exact value [q], the line is answered, and with
    the text for [q]; if they make it an error, with that error. *)
Theorem C68_exact_answer : forall pr ord x input se se' r ts n k res,
  working_session se -> is_expression (a_radix (s_args se)) input ts -> digits_kept pr (s_args se) = Some k ->
  derives 5 ts n \/ ((exists y, assignment ts y n) /\ e_vars (s_env se) <> None) ->
  meaning (var_result (after_recording se)) power_exact n res ->
  calculate pr ord x input se = (se', r) ->
  match res with
  | Value q => exists text, r = Ok text /\ result_text (s_args se) q text
  | Fails e => r = Err e
  | Crashes => exists p, r = Panic p
  end.
Proof. exact working_exact. Qed.
Print Assumptions C68_exact_answer.
(** There is only one such text: settings and value determine every character. *)
Theorem C68_text_determined : forall a v v' text text', valid_settings a -> (v == v')%Q ->
  result_text a v text -> result_text a v' text' -> text = text'.
Proof.
  intros a v v' text text' Ha E T T'. apply (result_text_unique a v'); [apply (output_radix_ok a Ha)| |exact T']. eapply result_text_eq; eauto.
Qed.
Print Assumptions C68_text_determined.
Example C68_example :
  map (fun l => snd (enter (lit l) (afterwards [lit "/commas true"; lit "/precision 3"] se0))) ["1234567/8"; "1/3"; "-1/2^20"; "1000*1000"]%string =
  [Ok (lit "154,320.875"); Ok (lit "0.333"); Ok (lit "-0.000"); Ok (lit "1,000,000")] /\
  snd (enter (lit "10/4") (afterwards [lit "/fractional true"] se0)) = Ok (lit "5/2") /\
  snd (enter (lit "255/2") (afterwards [lit "/converttoradix 16"; lit "/upper false"] se0)) = Ok (lit "7f.8").
Proof. vm_compute. auto. Qed.

(** ** C69 *)
(** Typing a line adds nothing to the rows above, and then that very text is what a submit would interpret. *)
Theorem C69_typing_composes_the_line : forall pr ord x tm u line,
  ih_current (u_inputs u) = [Some []] -> ih_index (u_inputs u) = 0 -> l_cursor (u_line u) = 0 ->
  l_start (u_line u) = fst (tm (u_count u)) -> l_cols (u_line u) = snd (tm (u_count u)) ->
  a_alternate_screen (u_args u) = false -> typable line ->
  6 <= snd (tm (u_count u)) -> fits_u16 (snd (tm (u_count u))) ->
  exists u' out, run_events pr ord x tm (keys_of line) u = (u', out, Waiting) /\ shown (u_inputs u') = Ok line /\
    l_cursor (u_line u') = List.length line /\ session_of u' = type_in line (session_of u) /\
    forall s, sc_above (screen_after out s) = sc_above s.
Proof.
  intros pr ord x tm u line E1 E2 E3 E4 E5 E6 Ht H6 Hu.
  destruct (type_line pr ord x tm line u [] (mkComposing _ _ _ E1 E2 E3 E4 E5 E6) Ht H6 Hu) as (u' & out & E & C & S & _ & P). cbn [app] in *.
  exists u', out. split; [exact E|]. split; [exact (composing_line _ _ _ C)|]. split; [exact (co_cursor _ _ _ C)|]. auto.
Qed.
Print Assumptions C69_typing_composes_the_line.
(** A whole session in which lines are typed and submitted one after the other: each is interpreted in
    the state the ones before it left, and the screen shows, from the top, each line followed by the
    rows of its reply, and the prompt. *)
Theorem C69_transcript : forall pr ord tm a db lines se' replies, (forall n, iterates (ord n)) -> valid_settings a ->
  a_alternate_screen a = false -> (forall sd, db = Some sd -> program_file (sd_db sd)) ->
  Forall typable lines -> roomy tm 0 -> (forall line, In line lines -> roomy tm (List.length line)) ->
  dialogue pr ord the_executor 0 (new_session a db) lines se' replies ->
  exists u out rows, interactive pr ord the_executor tm a db (typing_lines lines) = (u, out, Waiting) /\
    session_of u = se' /\ transcript tm 0 replies rows /\ shown (u_inputs u) = Ok [] /\
    screen_after out blank = mkScreen rows (lit "# ") 2.
Proof. exact dialogue_interactive. Qed.
Print Assumptions C69_transcript.
(** Such a dialogue exists unless a line crashes the program: the replies are determined line by line. *)
Theorem C69_dialogue_unless_crash : forall pr ord x lines n se,
  (exists se' replies, dialogue pr ord x n se lines se' replies /\ map fst replies = lines) \/
  (exists before line after se1 replies p se2, lines = before ++ line :: after /\
     dialogue pr ord x n se before se1 replies /\
     calculate pr (ord (n + List.length before)) x line (type_in line se1) = (se2, Panic p)).
Proof.
  intros pr ord x. induction lines as [|line lines IH]; intros n se.
  - left. exists se, []. split; constructor.
  - destruct (calculate pr (ord n) x line (type_in line se)) as [se1 r] eqn:C.
    destruct (C66_every_reply_has_one_text r) as [(text & T & _)|(p & ->)].
    + destruct (IH (S n) se1) as [(se' & rest & D & M)|(before & l & after & se2 & rest & p & se3 & -> & D & P)].
      * left. exists se', ((line, text) :: rest). split; [econstructor; eauto|]. cbn. rewrite M. reflexivity.
      * right. exists (line :: before), l, after, se2, ((line, text) :: rest), p, se3. split; [reflexivity|]. split; [econstructor; eauto|].
        cbn [List.length]. rewrite Nat.add_succ_r. exact P.
    + right. exists [], line, lines, se, [], p, se1. split; [reflexivity|]. split; [constructor|]. cbn [List.length]. rewrite Nat.add_0_r. exact C.
Qed.
Print Assumptions C69_dialogue_unless_crash.
Example C69_example :
  let lines := [lit "$x = 6"; lit "$x * 7"; lit "2 +"] in
  Forall typable lines /\ roomy term80 0 /\
  screen_of (interactive Debug (fun _ => order) the_executor term80 a0 (Some disk0) (typing_lines lines)) =
  mkScreen [lit "# $x = 6"; lit "6"; lit "# $x * 7"; lit "42"; lit "# 2 +"; lit "Error: Addition Operator (+) is missing a required operand"] (lit "# ") 2.
Proof.
  split; [|split; [|vm_compute; reflexivity]].
  - repeat constructor; discriminate.
  - intros k. split; [vm_compute; lia|]. split; vm_compute; reflexivity.
Qed.
