(** SpecLex.v -- specification of the lexical structure of bcalc input lines, written
    without reference to the tokenizer's functions.  Only the token and position types and
    [lit] are shared. *)
From Verif Require Import Base Position TokenTypes Errors.
From Coq Require Import String.
Local Open Scope list_scope.

(** The one-character tokens. *)
Definition punctuation : list (str * token) :=
  [ (lit "+", TBin Add); (lit "-", TBin Subtract); (lit "*", TBin Multiply);
    (lit "/", TBin Divide); (lit "%", TBin Modulus); (lit "^", TBin Exponent);
    (lit "(", TOpen); (lit ")", TClose); (lit "=", TAssign); (lit ",", TComma) ].
(** The reserved words. *)
Definition keywords : list (str * token) :=
  [ (lit "sqrt", TUn SquareRoot); (lit "abs", TUn AbsoluteValue);
    (lit "max", TFun FMax); (lit "min", TFun FMin) ].

(** Tab, line feed, form feed, carriage return, space. *)
Definition blank (c : char) : Prop := In c [9; 10; 12; 13; 32]%N.
Definition punct_char (c : char) : Prop := exists t, In ([c], t) punctuation.
(** A character that belongs to words: neither blank nor punctuation. *)
Definition word_char (c : char) : Prop := ~ blank c /\ ~ punct_char c.

(** Digits: [c] is the digit of value [d], in either letter case. *)
Definition has_digit (c : char) (d : N) : Prop :=
  nth_error (lit "0123456789abcdefghijklmnopqrstuvwxyz") (N.to_nat d) = Some c \/
  nth_error (lit "0123456789ABCDEFGHIJKLMNOPQRSTUVWXYZ") (N.to_nat d) = Some c.
(** [ds] are the digit values of the text [s] in the given radix. *)
Definition digits_of (radix : N) (s : str) (ds : list N) : Prop :=
  Forall2 (fun c d => has_digit c d /\ (d < radix)%N) s ds.

(** Positional value: sum of digit * radix^(number of digits to its right). *)
Fixpoint int_value (radix : N) (ds : list N) : Z :=
  match ds with
  | [] => 0
  | d :: ds' => (Z.of_N d * Z.of_N radix ^ Z.of_nat (List.length ds') + int_value radix ds')%Z
  end.
(** Value of the digits after the point: d1/r + d2/r^2 + ... *)
Fixpoint frac_value (radix : N) (ds : list N) : Q :=
  match ds with
  | [] => 0
  | d :: ds' => (inject_Z (Z.of_N d) + frac_value radix ds') / inject_Z (Z.of_N radix)
  end.

(** Without the digit separators '_'. *)
Definition no_underscores (w : str) : str := filter (fun c => negb (N.eqb c 95)) w.

(** [numeral radix w v]: the word [w] is a number in this radix and its value is [v], in
    lowest terms. *)
Definition numeral (radix : N) (w : str) (v : Q) : Prop :=
  Qred v = v /\
  ((exists ds, ds <> [] /\ digits_of radix (no_underscores w) ds /\
               (v == inject_Z (int_value radix ds))%Q)
   \/
   (exists ip fp ids fds,
      no_underscores w = ip ++ lit "." ++ fp /\
      digits_of radix ip ids /\ digits_of radix fp fds /\ ids ++ fds <> [] /\
      (v == inject_Z (int_value radix ids) + frac_value radix fds)%Q)).

(** What a single word means. *)
Inductive word_token (radix : N) : str -> token -> Prop :=
| wt_variable : forall name, word_token radix (lit "$" ++ name) (TVariable (lit "$" ++ name))
| wt_keyword : forall w t, In (w, t) keywords -> word_token radix w t
| wt_number : forall w v, (forall t, ~ In (w, t) keywords) -> numeral radix w v ->
                          word_token radix w (TNumber v).

(** [s] is at the end of a word: it is empty or does not start with a word character. *)
Definition word_ends (s : str) : Prop :=
  match s with [] => True | c :: _ => ~ word_char c end.

(** [reading radix o s ts]: the text [s], which starts at offset [o] of the line, reads as the
    positioned tokens [ts]; words are maximal. *)
Inductive reading (radix : N) : nat -> str -> list (positioned token) -> Prop :=
| rd_end : forall o, reading radix o [] []
| rd_blank : forall o c s ts,
    blank c -> reading radix (o + 1) s ts -> reading radix o (c :: s) ts
| rd_punct : forall o c t s ts,
    In ([c], t) punctuation -> reading radix (o + 1) s ts ->
    reading radix o (c :: s) (mkPositioned t (mkPos o 1) :: ts)
| rd_word : forall o w t s ts,
    w <> [] -> Forall word_char w -> word_ends s -> word_token radix w t ->
    reading radix (o + List.length w) s ts ->
    reading radix o (w ++ s) (mkPositioned t (mkPos o (List.length w)) :: ts).

Definition all_ascii (s : str) : Prop := Forall (fun c => (c < 128)%N) s.
(** Blank in the sense of [str::trim_start]: also vertical tab. *)
Definition space (c : char) : Prop := c = 32%N \/ (9 <= c <= 13)%N.
(** A command line: its first non-blank character is a slash. *)
Definition command_line (s : str) : Prop :=
  exists pre body, s = pre ++ lit "/" ++ body /\ Forall space pre.

(** The text at a position of a line. *)
Definition text_at (s : str) (p : position) : str := firstn (p_width p) (skipn (p_start p) s).
(** [w] is a possible source text of the token [t]. *)
Definition spells (radix : N) (w : str) (t : token) : Prop :=
  In (w, t) punctuation \/ (w <> [] /\ Forall word_char w /\ word_token radix w t).

(** A lexeme: one punctuation character or one word. *)
Definition is_word (w : str) : Prop := w <> [] /\ Forall word_char w.
Definition lexeme (w : str) : Prop := (exists c, w = [c] /\ punct_char c) \/ is_word w.
(** [spacing ws s]: the line [s] is the lexemes [ws] in order with arbitrary whitespace before,
    between and after them; between two words there must be some. *)
Inductive spacing : list str -> str -> Prop :=
| sp_end : forall gap, Forall blank gap -> spacing [] gap
| sp_cons : forall gap w ws s,
    Forall blank gap -> lexeme w -> spacing ws s ->
    (is_word w -> forall w' ws', ws = w' :: ws' -> is_word w' -> word_ends s) ->
    spacing (w :: ws) (gap ++ w ++ s).
(** Lexemes that only differ by digit separators in a number. *)
Definition same_lexeme (radix : N) (w w' : str) : Prop :=
  w = w' \/
  (is_word w /\ (exists v, word_token radix w (TNumber v)) /\ no_underscores w = no_underscores w').

(** Integer argument lists: optionally negated integer literals.  The bounds say that the
    literal (without its sign) fits a 64-bit signed integer. *)
Inductive int_args : list (positioned token) -> list (positioned Z) -> Prop :=
| ia_end : int_args [] []
| ia_plain : forall v z p ts l,
    (v == inject_Z z)%Q -> (0 <= z < 2 ^ 63)%Z -> int_args ts l ->
    int_args (mkPositioned (TNumber v) p :: ts) (mkPositioned z p :: l)
| ia_negated : forall v z p q ts l,
    (v == inject_Z z)%Q -> (0 <= z < 2 ^ 63)%Z -> int_args ts l ->
    int_args (mkPositioned (TBin Subtract) q :: mkPositioned (TNumber v) p :: ts)
             (mkPositioned (- z)%Z (mkPos (p_start q) (p_start p + p_width p - p_start q)) :: l).
(** Variable argument lists. *)
Definition variable_args (ts : list (positioned token)) (l : list (positioned str)) : Prop :=
  ts = map (fun x => mkPositioned (TVariable (pd_value x)) (pd_pos x)) l.

(** [pre] does not end inside a word *)
Definition ends_outside (pre : str) : Prop :=
  pre = [] \/ exists p c, pre = p ++ [c] /\ ~ word_char c.
(** [bad_word radix s w i]: the first word of [s] that is no token is [w], at index [i]. *)
Definition bad_word (radix : N) (s w : str) (i : nat) : Prop :=
  exists pre post ts,
    s = pre ++ w ++ post /\ i = List.length pre /\ reading radix 0 pre ts /\ ends_outside pre /\
    w <> [] /\ Forall word_char w /\ word_ends post /\ forall t, ~ word_token radix w t.

(** The two parts of a command line. *)
Definition command_parts (s : str) (name args : positioned str) : Prop :=
  exists pre body, s = pre ++ lit "/" ++ body /\ Forall space pre /\
  ((Forall (fun c => ~ blank c) body /\
    name = mkPositioned body (mkPos (List.length pre) (1 + List.length body)) /\
    args = mkPositioned [] (mkPos (List.length s) 0))
   \/
   (exists nm c rest, body = nm ++ c :: rest /\ Forall (fun c => ~ blank c) nm /\ blank c /\
    name = mkPositioned nm (mkPos (List.length pre) (1 + List.length nm)) /\
    args = mkPositioned rest (mkPos (List.length pre + 1 + List.length nm + 1) (List.length rest)))).


(** Position algebra: [p] covers [q]. *)
Definition covers (p q : position) : Prop := p_start p <= p_start q /\ p_start q + p_width q <= p_start p + p_width p.

(** [trimmed x y]: the text of [y] is the text of [x] without the blanks at both ends, and the
    position of [y] is where that text is. *)
Definition trimmed (x y : positioned str) : Prop :=
  exists pre post,
    pd_value x = pre ++ pd_value y ++ post /\
    Forall blank (pre ++ post) /\
    (forall c rest, pd_value y = c :: rest -> ~ blank c) /\
    (forall c rest, pd_value y = rest ++ [c] -> ~ blank c) /\
    (pd_value y <> [] -> p_start (pd_pos y) = p_start (pd_pos x) + List.length pre) /\
    (pd_value y = [] -> p_start (pd_pos y) = p_start (pd_pos x)) /\
    p_width (pd_pos y) = List.length (pd_value y).

