(** PropertiesCommandLine.v -- the command line: C85, C86. *)
From Verif Require Import Base Position Num TokenTypes Errors Token SavedData Variables InputHistory
  SyntaxTree Commands Calculate Editor Sessions Main CommandLine SpecGrammar SpecEval SpecPrint SpecCalc SpecCommands SpecSession SpecMain SpecCommandLine.
From Verif Require Import ProofsMain ProofsMain2 ProofsMain3 ProofsCommandLine ProofsCommandLine2 ProofsCommandLine3 PropertiesEditor PropertiesCalc PropertiesMain.
From Coq Require Import String Lia Permutation.
Local Open Scope nat_scope.
Local Open Scope list_scope.

(** ** C85 *)
(** However the settings are written -- long or short, flags joined, values joined, after '=' or as the next word -- the
    program runs with them exactly if none is given twice and every value is in its range, and then with the options they
    mean: the values given, and the defaults. *)
Theorem C85_settings : forall ss words o, spells ss words ->
  parse_args words = Accepted o <-> NoDup (map named ss) /\ Forall proper ss /\ means ss o.
Proof. intros ss words o S. exact (spelled_means ss words o S). Qed.
Print Assumptions C85_settings.
(** Nothing else is taken for settings. *)
Theorem C85_nothing_else : forall words o, parse_args words = Accepted o -> exists ss, spells ss words.
Proof. exact accepted_spelled. Qed.
Print Assumptions C85_nothing_else.
(** The settings determine the options. *)
Theorem C85_one_meaning : forall ss o o', NoDup (map named ss) -> means ss o -> means ss o' -> o = o'.
Proof. exact means_unique. Qed.
Print Assumptions C85_one_meaning.
(** Their order, and the way each is written, make no difference. *)
Theorem C85_order : forall ss ss' words words', spells ss words -> spells ss' words' -> Permutation ss ss' ->
  forall o, parse_args words = Accepted o <-> parse_args words' = Accepted o.
Proof. exact order_free. Qed.
Print Assumptions C85_order.
(** A setting given twice or out of range is refused, whatever follows; one after which help or the version is asked for is
    answered with that, whatever follows. *)
Theorem C85_refused : forall ss words rest, spells ss words -> ~ In (lit "--") words -> ~ In (Switch FHelp) ss -> ~ In (Switch FVersion) ss ->
  ~ (NoDup (map named ss) /\ Forall proper ss) -> parse_args (words ++ rest) = Rejected.
Proof. exact refused. Qed.
Print Assumptions C85_refused.
Theorem C85_help : forall f ss words rest, f = FHelp \/ f = FVersion -> spells (ss ++ [Switch f]) words -> ~ In (lit "--") words ->
  NoDup (map named ss) -> Forall proper ss -> parse_args (words ++ rest) = Shows f.
Proof. exact asked. Qed.
Print Assumptions C85_help.
(** The options of a run are always in range, and every combination in range can be asked for. *)
Theorem C85_in_range : forall words o, parse_args words = Accepted o ->
  (2 <= a_radix (o_args o) <= 16)%N /\ (forall r, a_convert_to_radix (o_args o) = Some r -> (1 <= r <= 16)%N) /\
  (a_precision (o_args o) <= 255)%N /\ (a_extra_precision (o_args o) <= 255)%N.
Proof.
  intros words o E. pose proof (accepted_in_range _ _ E) as C. unfold cli_accepts in C. apply andb_prop in C as [C C4]. apply andb_prop in C as [C C3]. apply andb_prop in C as [C C2]. apply andb_prop in C as [C0 C1].
  apply N.ltb_lt in C4. apply N.ltb_lt in C3. apply N.leb_le in C0. apply N.leb_le in C1. split; [lia|]. split; [|lia].
  intros r Er. rewrite Er in C2. apply andb_prop in C2 as [H1 H2]. apply N.leb_le in H1. apply N.ltb_lt in H2. lia.
Qed.
Print Assumptions C85_in_range.
Theorem C85_every_combination : forall o, (2 <= a_radix (o_args o) <= 16)%N -> (forall r, a_convert_to_radix (o_args o) = Some r -> (1 <= r <= 16)%N) ->
  (a_precision (o_args o) <= 255)%N -> (a_extra_precision (o_args o) <= 255)%N -> exists words, parse_args words = Accepted o.
Proof.
  intros o R C P X. apply every_options. unfold cli_accepts. repeat (apply andb_true_intro; split); try (apply N.leb_le; lia); try (apply N.ltb_lt; lia).
  destruct (a_convert_to_radix (o_args o)) as [r|]; [|reflexivity]. specialize (C r eq_refl). apply andb_true_intro; split; [apply N.leb_le|apply N.ltb_lt]; lia.
Qed.
Print Assumptions C85_every_combination.
(** The process does nothing else if it does not run with options: status 0 after help or version, 2 after a refusal. *)
Theorem C85_process : forall pr ord words m evs,
  match parse_args words with
  | Accepted o => process pr ord words m evs = (Some (main pr ord o m evs), exit_status (out_ending (main pr ord o m evs)))
  | Shows _ => process pr ord words m evs = (None, Some 0%N)
  | Rejected => process pr ord words m evs = (None, Some 2%N)
  end.
Proof. intros pr ord words m evs. unfold process. destruct (parse_args words); reflexivity. Qed.
Print Assumptions C85_process.
Definition defaults : args := mkArgs 10 false None 5 10 false false false.
(** "-fcr16 --precision 3 --no-db" and "--no-db -p=3 -cf --radix=+16" are the same settings; radix 17, "-r -2", a second "-f" and
    a word by itself are refused; help after a proper setting is shown, after an improper one it is not. *)
Example C85_example :
  let ss := [Switch FFractional; Switch FCommas; Choice ORadix (lit "16"); Choice OPrecision (lit "3"); Switch FNoDb] in
  let words := [lit "-fcr16"; lit "--precision"; lit "3"; lit "--no-db"] in
  let o := mkOptions (mkArgs 16 false None 3 10 true true false) None true in
  spells ss words /\ NoDup (map named ss) /\ Forall proper ss /\ means ss o /\ parse_args words = Accepted o /\
  parse_args [lit "--no-db"; lit "-p=3"; lit "-cf"; lit "--radix=+16"] = Accepted o /\
  parse_args [] = Accepted (mkOptions defaults None false) /\
  parse_args [lit "-r17"] = Rejected /\ parse_args [lit "-r"; lit "-2"] = Rejected /\ parse_args [lit "-ff"] = Rejected /\ parse_args [lit "1+1"] = Rejected /\
  parse_args [lit "-fh"; lit "junk"] = Shows FHelp /\ parse_args [lit "-p300"; lit "--help"] = Rejected.
Proof.
  set (ss := [Switch FFractional; Switch FCommas; Choice ORadix (lit "16"); Choice OPrecision (lit "3"); Switch FNoDb]).
  assert (S : spells ss [lit "-fcr16"; lit "--precision"; lit "3"; lit "--no-db"]).
  { apply (sp_letters_joined [FFractional; FCommas] (lit "fc") ORadix 114%N (lit "16")); [repeat constructor|reflexivity|discriminate|discriminate|].
    apply (sp_apart OPrecision (lit "3")); [right; intros c v E; injection E as <- <-; discriminate|]. apply (sp_flag FNoDb). constructor. }
  assert (E : parse_args [lit "-fcr16"; lit "--precision"; lit "3"; lit "--no-db"] = Accepted (mkOptions (mkArgs 16 false None 3 10 true true false) None true)) by (vm_compute; reflexivity).
  cbv zeta. pose proof (proj1 (C85_settings _ _ _ S) E) as (A & B & C).
  split; [exact S|]. split; [exact A|]. split; [exact B|]. split; [exact C|]. split; [exact E|]. vm_compute. repeat split.
Qed.

(** ** C86 *)
(** The expression to compute can be given on the command line as it is, and is answered: with [--input=], whatever it is;
    as a word after [--input] or [-i] if it does not begin with a minus sign.  Missing for the full claim: words that do
    ([C86_refuted]). *)
Theorem C86_one_shot_partial : forall pr ord words text m evs ts n res,
  words = [lit "--input=" ++ text] \/ (forall rest, text <> c_minus :: rest) /\ (words = [lit "--input"; text] \/ words = [lit "-i"; text]) ->
  is_expression 10 text ts -> derives 5 ts n -> meaning (var_result (mkEnv None None)) power_exact n res ->
  exists run status, process pr ord words m evs = (Some run, status) /\ out_file run = m_file m /\
  match res with
  | Value q => exists answer, out_stdout run = answer ++ [c_newline] /\ result_text defaults q answer /\ status = Some 0%N
  | Fails e => exists complaint, out_stderr run = complaint ++ [c_newline] /\ reply_text (Err e) complaint /\ status = Some 0%N
  | Crashes => status = Some 101%N
  end.
Proof.
  intros pr ord words text m evs ts n res W Ex D Me. set (o := mkOptions defaults (Some text) false).
  assert (P : parse_args words = Accepted o).
  { destruct W as [-> |[N W]]; [reflexivity|]. assert (O : ordinary text) by (right; intros c v -> ->; exact (N v eq_refl)). unfold parse_args. destruct W as [-> | ->].
    - change (parse_words (lit "--input" :: [text]) None nothing_given) with (parse_words [text] (Some OInput) nothing_given). rewrite (value_step _ _ _ _ O). reflexivity.
    - change (parse_words (lit "-i" :: [text]) None nothing_given) with (parse_words [text] (Some OInput) nothing_given). rewrite (value_step _ _ _ _ O). reflexivity. }
  assert (V : valid_settings (o_args o)) by (split; [split; discriminate|]; split; [discriminate|]; split; reflexivity).
  exists (main pr ord o m evs), (exit_status (out_ending (main pr ord o m evs))). unfold process. rewrite P. split; [reflexivity|].
  destruct (one_shot_run pr ord o m evs text eq_refl V) as (F & _ & _ & K). split; [exact F|].
  assert (Dk : digits_kept pr (o_args o) = Some 16%N) by reflexivity.
  pose proof (one_shot_answer pr ord o m evs text ts n 16%N res eq_refl V Ex Dk D Me) as A. cbv zeta in A. destruct res as [q|e|]; [| |exact A].
  - destruct A as (t & A & R). exists t. split; [exact A|]. split; [exact R|]. destruct K as [(t' & _ & _ & K)|[(t' & X & _)|(X & _)]]; [exact K| |]; rewrite X in A; destruct t; discriminate A.
  - destruct A as (t & A & R). exists t. split; [exact A|]. split; [exact R|]. destruct K as [(t' & _ & X & _)|[(t' & _ & _ & K)|(_ & X & _)]]; [|exact K|]; rewrite X in A; destruct t; discriminate A.
Qed.
Print Assumptions C86_one_shot_partial.
(** "-5+3" is an expression with the value -2, but "bcalc -i -5+3" is refused. *)
Theorem C86_refuted : exists text ts, is_expression 10 text ts /\
  (exists run, process Debug (fun _ => order) [lit "--input=" ++ text] (machine0 empty_db) [] = (Some run, Some 0%N) /\ out_stdout run = lit "-2" ++ [c_newline]) /\
  process Debug (fun _ => order) [lit "-i"; text] (machine0 empty_db) [] = (None, Some 2%N) /\
  process Debug (fun _ => order) [lit "--input"; text] (machine0 empty_db) [] = (None, Some 2%N).
Proof.
  exists (lit "-5+3"). eexists. split; [vm_compute; reflexivity|]. split; [|split; vm_compute; reflexivity].
  eexists. split; [vm_compute; reflexivity|vm_compute; reflexivity].
Qed.
Print Assumptions C86_refuted.
Example C86_example :
  let run words := match process Debug (fun _ => order) words (machine0 empty_db) [] with (Some w, s) => (out_stdout w, out_stderr w, s) | (None, s) => ([], [], s) end in
  run [lit "-i"; lit "2^10/3"] = (lit "341.33333" ++ [c_newline], [], Some 0%N) /\ run [lit "-i2^10/3"; lit "-f"] = (lit "1024/3" ++ [c_newline], [], Some 0%N) /\
  run [lit "--input=-5+3"] = (lit "-2" ++ [c_newline], [], Some 0%N) /\ run [lit "-i"; lit "-5+3"] = ([], [], Some 2%N).
Proof. vm_compute. repeat split. Qed.
