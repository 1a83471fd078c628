(** PropertiesLex.v -- the lexical properties C01-C08 and the position algebra C62. *)
From Verif Require Import Base Position Num TokenTypes Errors Token SpecLex.
From Verif Require Import ProofsPosition ProofsLex ProofsLex2.
From Coq Require Import String.
Local Open Scope list_scope.

(** C01. An ASCII line that is no command is accepted with exactly the tokens of its reading,
    a line has at most one reading, and no other line is accepted as an expression. *)
Theorem C01_tokenize_iff_reading : forall s radix ts, (2 <= radix <= 16)%N ->
  tokenize s radix = Ok (PTokens ts) <-> all_ascii s /\ ~ command_line s /\ reading radix 0 s ts.
Proof. intros s radix ts H. apply tokenize_tokens. apply radix_ok_spec. lia. Qed.
Print Assumptions C01_tokenize_iff_reading.

Theorem C01_reading_unique : forall s radix ts1 ts2, (2 <= radix <= 16)%N ->
  reading radix 0 s ts1 -> reading radix 0 s ts2 -> ts1 = ts2.
Proof. intros s radix ts1 ts2 H. apply reading_unique. apply radix_ok_spec. lia. Qed.
Print Assumptions C01_reading_unique.

Example C01_example :
  tokenize (lit "$x=max(2,fF)^-1") 16 =
  Ok (PTokens
    [mkPositioned (TVariable (lit "$x")) (mkPos 0 2); mkPositioned TAssign (mkPos 2 1);
     mkPositioned (TFun FMax) (mkPos 3 3); mkPositioned TOpen (mkPos 6 1);
     mkPositioned (TNumber (2 # 1)) (mkPos 7 1); mkPositioned TComma (mkPos 8 1);
     mkPositioned (TNumber (255 # 1)) (mkPos 9 2); mkPositioned TClose (mkPos 11 1);
     mkPositioned (TBin Exponent) (mkPos 12 1); mkPositioned (TBin Subtract) (mkPos 13 1);
     mkPositioned (TNumber (1 # 1)) (mkPos 14 1)]).
Proof. vm_compute. reflexivity. Qed.

(** C02. *)
Theorem C02_positions : forall s radix ts, (2 <= radix <= 16)%N -> tokenize s radix = Ok (PTokens ts) ->
  (forall t, In t ts -> 1 <= p_width (pd_pos t) /\
      p_start (pd_pos t) + p_width (pd_pos t) <= List.length s /\
      spells radix (text_at s (pd_pos t)) (pd_value t)) /\
  (forall i j ti tj, i < j -> nth_error ts i = Some ti -> nth_error ts j = Some tj ->
      p_start (pd_pos ti) + p_width (pd_pos ti) <= p_start (pd_pos tj)) /\
  (forall k c, nth_error s k = Some c ->
      (blank c <-> ~ exists t, In t ts /\
         p_start (pd_pos t) <= k < p_start (pd_pos t) + p_width (pd_pos t))).
Proof. intros s radix ts H. apply tokenize_layout. apply radix_ok_spec. lia. Qed.
Print Assumptions C02_positions.
Example C02_example : exists ts, tokenize (lit "  12 +$y ") 10 = Ok (PTokens ts) /\
  map (fun t => text_at (lit "  12 +$y ") (pd_pos t)) ts = [lit "12"; lit "+"; lit "$y"].
Proof. eexists. split; vm_compute; reflexivity. Qed.

(** C03. A line consisting of one word is accepted as a number iff the word is a numeral, and then
    the token is the number it denotes. *)
Theorem C03_literal_value : forall w radix v, (2 <= radix <= 16)%N -> is_word w ->
  (tokenize w radix = Ok (PTokens [mkPositioned (TNumber v) (mkPos 0 (List.length w))])
   <-> numeral radix w v).
Proof. exact literal_value. Qed.
Print Assumptions C03_literal_value.
(** and in any accepted line every number token denotes the value of its own text. *)
Theorem C03_number_tokens : forall s radix ts v p, (2 <= radix <= 16)%N ->
  tokenize s radix = Ok (PTokens ts) -> In (mkPositioned (TNumber v) p) ts ->
  numeral radix (text_at s p) v.
Proof. exact number_tokens. Qed.
Print Assumptions C03_number_tokens.
Example C03_example : numeral 16 (lit "a_F.8") (351 # 2).
Proof.
  apply (C03_literal_value (lit "a_F.8") 16 (351 # 2)); [lia| |vm_compute; reflexivity].
  split; [discriminate|]. repeat constructor; apply word_char_iff; split; reflexivity.
Qed.

(** C04. *)
Theorem C04_lex_errors : forall s radix e, (2 <= radix <= 16)%N ->
  tokenize s radix = Err e <->
  (exists pre c post, s = pre ++ c :: post /\ all_ascii pre /\ (128 <= c)%N /\
      e = mkPositioned NonAscii (mkPos (List.length pre) 1))
  \/
  (all_ascii s /\ ~ command_line s /\
   exists w i, bad_word radix s w i /\ e = mkPositioned (InvalidNumber w) (mkPos i (List.length w))).
Proof. intros s radix e H. apply tokenize_error. apply radix_ok_spec. lia. Qed.
Print Assumptions C04_lex_errors.
Theorem C04_no_crash : forall s radix p, (2 <= radix <= 16)%N -> tokenize s radix <> Panic p.
Proof. intros s radix p H. apply tokenize_no_panic. apply radix_ok_spec. lia. Qed.
Print Assumptions C04_no_crash.
Example C04_example :
  tokenize (lit "1+2x y") 10 = Err (mkPositioned (InvalidNumber (lit "2x")) (mkPos 2 2)) /\
  tokenize (lit "1+" ++ [955%N]) 10 = Err (mkPositioned NonAscii (mkPos 2 1)).
Proof. split; vm_compute; reflexivity. Qed.

(** C05. *)
Theorem C05_whitespace_and_separators : forall radix ws s ws' s' ts, (2 <= radix <= 16)%N ->
  spacing ws s -> spacing ws' s' -> Forall2 (same_lexeme radix) ws ws' ->
  tokenize s radix = Ok (PTokens ts) ->
  exists ts', tokenize s' radix = Ok (PTokens ts') /\ map pd_value ts' = map pd_value ts.
Proof. exact tokenize_spacing. Qed.
Print Assumptions C05_whitespace_and_separators.
(** Every accepted line is a spacing of its lexemes, so C05 applies to all of them. *)
Theorem C05_applies : forall s radix ts, (2 <= radix <= 16)%N ->
  tokenize s radix = Ok (PTokens ts) -> exists ws, spacing ws s.
Proof.
  intros s radix ts H T. apply tokenize_tokens in T as (_ & _ & R); [|apply radix_ok_spec; lia].
  eapply reading_spacing; eauto.
Qed.
Print Assumptions C05_applies.
Definition token_values (r : lex_result parsed_input) : list token :=
  match r with Ok (PTokens ts) => map pd_value ts | _ => [] end.
Example C05_example :
  token_values (tokenize (lit "1000+ $x") 10) = [TNumber (1000 # 1); TBin Add; TVariable (lit "$x")] /\
  token_values (tokenize (lit " 1_00_0  +$x") 10) = [TNumber (1000 # 1); TBin Add; TVariable (lit "$x")].
Proof. split; vm_compute; reflexivity. Qed.

(** C06. *)
Theorem C06_commands : forall s radix name args,
  tokenize s radix = Ok (PCommand name args) <-> all_ascii s /\ command_parts s name args.
Proof. exact tokenize_command. Qed.
Print Assumptions C06_commands.
Theorem C06_every_slash_line : forall s radix, all_ascii s -> command_line s ->
  exists name args, tokenize s radix = Ok (PCommand name args).
Proof. exact command_line_command. Qed.
Print Assumptions C06_every_slash_line.
Example C06_example :
  tokenize (lit " /radix  16") 10 =
  Ok (PCommand (mkPositioned (lit "radix") (mkPos 1 6)) (mkPositioned (lit " 16") (mkPos 8 3))).
Proof. vm_compute. reflexivity. Qed.

(** C07. *)
Theorem C07_int_list : forall pr s radix l, (2 <= radix <= 16)%N ->
  tokenize_int_list pr s radix = Ok l <->
  all_ascii s /\ ~ command_line s /\ exists ts, reading radix 0 s ts /\ int_args ts l.
Proof. intros pr s radix l H. apply tokenize_int_list_spec. apply radix_ok_spec. lia. Qed.
Print Assumptions C07_int_list.
Theorem C07_no_crash : forall pr s radix p, (2 <= radix <= 16)%N -> tokenize_int_list pr s radix <> Panic p.
Proof. intros pr s radix p H. apply tokenize_int_list_spec. apply radix_ok_spec. lia. Qed.
Print Assumptions C07_no_crash.
Theorem C07_in_range : forall pr s radix l z, (2 <= radix <= 16)%N ->
  tokenize_int_list pr s radix = Ok l -> In z l -> (- 2 ^ 63 <= pd_value z < 2 ^ 63)%Z.
Proof. exact int_list_in_range. Qed.
Print Assumptions C07_in_range.
Example C07_example :
  tokenize_int_list Debug (lit "-12 7") 10 =
    Ok [mkPositioned (-12)%Z (mkPos 0 3); mkPositioned 7%Z (mkPos 4 1)] /\
  tokenize_int_list Debug (lit "9223372036854775808") 10 =
    Err (mkPositioned (lit "Value must be representable as a 64-bit signed integer") (mkPos 0 19)).
Proof. split; vm_compute; reflexivity. Qed.

(** C08. *)
Theorem C08_variable_list : forall s l,
  tokenize_variable_list s = Ok l <->
  all_ascii s /\ ~ command_line s /\
  reading 10 0 s (map (fun x => mkPositioned (TVariable (pd_value x)) (pd_pos x)) l).
Proof. intros s l. apply tokenize_variable_list_spec. Qed.
Print Assumptions C08_variable_list.
Theorem C08_no_crash : forall s p, tokenize_variable_list s <> Panic p.
Proof. intros s p. apply tokenize_variable_list_spec. Qed.
Print Assumptions C08_no_crash.
Example C08_example :
  tokenize_variable_list (lit "$a $bc") = Ok [mkPositioned (lit "$a") (mkPos 0 2); mkPositioned (lit "$bc") (mkPos 3 3)].
Proof. vm_compute. reflexivity. Qed.

(** C62. *)
Theorem C62_span : forall a b,
  covers (from_span a b) a /\ covers (from_span a b) b /\
  forall q, covers q a -> covers q b -> covers q (from_span a b).
Proof. exact from_span_least. Qed.
Print Assumptions C62_span.
Theorem C62_between : forall a b, p_start a + p_width a <= p_start b ->
  let gap := mkPos (p_start a + p_width a) (p_start b - (p_start a + p_width a)) in
  from_between a b = gap /\ from_between b a = gap.
Proof. intros a b H. split; [apply from_between_lr|apply from_between_rl]; exact H. Qed.
Print Assumptions C62_between.
Theorem C62_trim : forall E x, exists y, ptrim (E := E) x = Ok y /\ trimmed x y.
Proof. exact @ptrim_trimmed. Qed.
Print Assumptions C62_trim.
Example C62_example :
  from_span (mkPos 7 2) (mkPos 1 3) = mkPos 1 8 /\ from_between (mkPos 7 2) (mkPos 1 3) = mkPos 4 3 /\
  ptrim (E := unit) (mkPositioned (lit "  ab ") (mkPos 10 5)) = Ok (mkPositioned (lit "ab") (mkPos 12 2)).
Proof. repeat split; reflexivity. Qed.
