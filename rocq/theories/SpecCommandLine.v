(** SpecCommandLine.v -- how settings are written on the command line, and what they mean. *)
From Verif Require Import Base Position Num TokenTypes Errors Token SavedData Variables InputHistory
  SyntaxTree Commands Calculate Editor Main CommandLine.
From Coq Require Import String.
Local Open Scope list_scope.

(** A setting given on the command line: a switch, or an option with the text of its value. *)
Inductive setting := Switch (f : cli_flag) | Choice (o : cli_option) (text : str).
Definition named (s : setting) : cli_name := match s with Switch f => NFlag f | Choice o _ => NOption o end.

(** Their names. *)
Definition option_name (o : cli_option) : str :=
  lit match o with
      | ORadix => "--radix" | OInput => "--input" | OConvertToRadix => "--convert-to-radix"
      | OPrecision => "--precision" | OExtraPrecision => "--extra-precision"
      end.
Definition flag_name (f : cli_flag) : str :=
  lit match f with
      | FAlternateScreen => "--alternate-screen" | FNoDb => "--no-db" | FFractional => "--fractional"
      | FCommas => "--commas" | FUpper => "--upper" | FHelp => "--help" | FVersion => "--version"
      end.
Definition option_letter (o : cli_option) (c : char) : Prop :=
  match o with
  | ORadix => [c] = lit "r" | OInput => [c] = lit "i" | OPrecision => [c] = lit "p"
  | OConvertToRadix | OExtraPrecision => False
  end.
Definition flag_letter (f : cli_flag) (c : char) : Prop :=
  match f with
  | FAlternateScreen => [c] = lit "a" | FFractional => [c] = lit "f" | FCommas => [c] = lit "c"
  | FUpper => [c] = lit "u" | FHelp => [c] = lit "h" | FVersion => [c] = lit "V" | FNoDb => False
  end.

(** A word that does not look like an option. *)
Definition ordinary (v : str) : Prop := v = lit "-" \/ forall c v', v = c :: v' -> c <> c_minus.
(** The words write the settings: [--flag]; [--option=value] or [--option value]; [-abc] for three flags; a letter of an
    option last, followed by its value, by '=' and its value, or by its value as the next word.  A last word [--] may
    follow. *)
Inductive spells : list setting -> list str -> Prop :=
| sp_none : spells [] []
| sp_end : spells [] [lit "--"]
| sp_flag : forall f ss words, spells ss words -> spells (Switch f :: ss) (flag_name f :: words)
| sp_equals : forall o v ss words, spells ss words -> spells (Choice o v :: ss) ((option_name o ++ lit "=" ++ v) :: words)
| sp_apart : forall o v ss words, ordinary v -> spells ss words -> spells (Choice o v :: ss) (option_name o :: v :: words)
| sp_letters : forall fs cs ss words, Forall2 flag_letter fs cs -> fs <> [] -> spells ss words ->
    spells (map Switch fs ++ ss) ((c_minus :: cs) :: words)
| sp_letters_joined : forall fs cs o c v ss words, Forall2 flag_letter fs cs -> option_letter o c ->
    v <> [] -> (forall v', v <> lit "=" ++ v') -> spells ss words ->
    spells (map Switch fs ++ Choice o v :: ss) ((c_minus :: cs ++ c :: v) :: words)
| sp_letters_equals : forall fs cs o c v ss words, Forall2 flag_letter fs cs -> option_letter o c -> spells ss words ->
    spells (map Switch fs ++ Choice o v :: ss) ((c_minus :: cs ++ c :: lit "=" ++ v) :: words)
| sp_letters_apart : forall fs cs o c v ss words, Forall2 flag_letter fs cs -> option_letter o c -> ordinary v -> spells ss words ->
    spells (map Switch fs ++ Choice o v :: ss) ((c_minus :: cs ++ [c]) :: v :: words).

(** A text that denotes a natural number: decimal digits, possibly after a plus sign (or a minus sign, if it is 0). *)
Definition digit_value (c : char) : N := (c - 48)%N.
Definition digits_value (ds : str) : N := fold_left (fun n c => 10 * n + digit_value c)%N ds 0%N.
Definition number (text : str) (n : N) : Prop :=
  exists ds, ds <> [] /\ Forall (fun c => (48 <= c <= 57)%N) ds /\ digits_value ds = n /\
    (text = ds \/ text = lit "+" ++ ds \/ text = lit "-" ++ ds /\ n = 0%N).
(** The values an option takes. *)
Definition takes (o : cli_option) (text : str) : Prop :=
  match o with
  | OInput => True
  | ORadix => exists n, number text n /\ (2 <= n <= 16)%N
  | OConvertToRadix => exists n, number text n /\ (1 <= n <= 16)%N
  | OPrecision | OExtraPrecision => exists n, number text n /\ (n <= 255)%N
  end.
Definition proper (s : setting) : Prop :=
  match s with Switch f => f <> FHelp /\ f <> FVersion | Choice o text => takes o text end.

(** The options these settings mean: the value given, or the default. *)
Definition given_number (ss : list setting) (o : cli_option) (v : option N) : Prop :=
  match v with
  | Some n => exists text, In (Choice o text) ss /\ number text n
  | None => forall text, ~ In (Choice o text) ss
  end.
Definition number_or (ss : list setting) (o : cli_option) (default n : N) : Prop :=
  given_number ss o (Some n) \/ given_number ss o None /\ n = default.
Record means (ss : list setting) (o : options) : Prop := mkMeans {
  ms_radix : number_or ss ORadix 10 (a_radix (o_args o));
  ms_convert : given_number ss OConvertToRadix (a_convert_to_radix (o_args o));
  ms_precision : number_or ss OPrecision 5 (a_precision (o_args o));
  ms_extra : number_or ss OExtraPrecision 10 (a_extra_precision (o_args o));
  ms_alternate : a_alternate_screen (o_args o) = true <-> In (Switch FAlternateScreen) ss;
  ms_fractional : a_fractional (o_args o) = true <-> In (Switch FFractional) ss;
  ms_commas : a_commas (o_args o) = true <-> In (Switch FCommas) ss;
  ms_upper : a_upper (o_args o) = true <-> In (Switch FUpper) ss;
  ms_no_db : o_no_db o = true <-> In (Switch FNoDb) ss;
  ms_input : forall text, o_input o = Some text <-> In (Choice OInput text) ss }.
