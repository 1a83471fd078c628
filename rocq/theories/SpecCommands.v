(** SpecCommands.v -- what the commands are supposed to do to the settings, and say. *)
From Verif Require Import Base SpecDecimal Position Num TokenTypes Errors Token SyntaxTree SpecLex.
From Coq Require Import String.
Local Open Scope list_scope.

(** The argument text is this list of integers (see C07). *)
Definition integers (arguments : str) (zs : list Z) : Prop :=
  all_ascii arguments /\ ~ command_line arguments /\
  exists ts l, reading 10 0 arguments ts /\ int_args ts l /\ zs = map pd_value l.
(** The argument text is this word, in any letter case and with any blanks around it. *)
Definition is_lower (w : str) : Prop := Forall (fun c => (97 <= c <= 122)%N) w.
Inductive letter : char -> char -> Prop :=
| letter_lower : forall c, (97 <= c <= 122)%N -> letter c c
| letter_upper : forall c, (97 <= c <= 122)%N -> letter c (c - 32)%N.
Definition says (arguments word : str) : Prop :=
  exists pre w post, arguments = pre ++ w ++ post /\ Forall space pre /\ Forall space post /\ Forall2 letter word w.
Definition no_argument (arguments : str) : Prop := Forall space arguments.
Definition says_bool (arguments : str) (b : bool) : Prop :=
  if b then says arguments (lit "true") \/ says arguments (lit "t")
  else says arguments (lit "false") \/ says arguments (lit "f").
Definition bool_text (b : bool) : str := if b then lit "true" else lit "false".

(** The names a command goes by. *)
Definition called (name : str) (names : list String.string) : Prop := In name (map lit names).
Definition setting_names : list String.string :=
  ["fractional"; "f"; "upper"; "commas"; "comma"; "radix"; "r"; "converttoradix"; "precision"; "p"]%string.

(** [setting_effect a name arguments a' text]: the command line [/name arguments] is a proper use
    of a settings command; under the settings [a] it leaves the settings [a'] and says [text]. *)
Inductive setting_effect : args -> str -> str -> args -> str -> Prop :=
| fractional_get : forall a name arguments, called name ["fractional"; "f"]%string -> no_argument arguments ->
    setting_effect a name arguments a (bool_text (a_fractional a))
| fractional_set : forall r s c p e f m u b name arguments, called name ["fractional"; "f"]%string -> says_bool arguments b ->
    setting_effect (mkArgs r s c p e f m u) name arguments (mkArgs r s c p e b m u) (lit "Done")
| upper_get : forall a name arguments, called name ["upper"]%string -> no_argument arguments ->
    setting_effect a name arguments a (bool_text (a_upper a))
| upper_set : forall r s c p e f m u b name arguments, called name ["upper"]%string -> says_bool arguments b ->
    setting_effect (mkArgs r s c p e f m u) name arguments (mkArgs r s c p e f m b) (lit "Done")
| commas_get : forall a name arguments, called name ["commas"; "comma"]%string -> no_argument arguments ->
    setting_effect a name arguments a (bool_text (a_commas a))
| commas_set : forall r s c p e f m u b name arguments, called name ["commas"; "comma"]%string -> says_bool arguments b ->
    setting_effect (mkArgs r s c p e f m u) name arguments (mkArgs r s c p e f b u) (lit "Done")
| radix_get : forall a name arguments, called name ["radix"; "r"]%string -> integers arguments [] ->
    setting_effect a name arguments a (in_decimal (Z.of_N (a_radix a)))
| radix_set : forall r s c p e f m u z name arguments, called name ["radix"; "r"]%string -> integers arguments [z] -> (2 <= z <= 16)%Z ->
    setting_effect (mkArgs r s c p e f m u) name arguments (mkArgs (Z.to_N z) s c p e f m u) (lit "Done")
| convert_get : forall a name arguments, called name ["converttoradix"]%string -> integers arguments [] ->
    setting_effect a name arguments a (match a_convert_to_radix a with Some c => in_decimal (Z.of_N c) | None => lit "None" end)
| convert_clear : forall r s c p e f m u name arguments, called name ["converttoradix"]%string -> says arguments (lit "none") ->
    setting_effect (mkArgs r s c p e f m u) name arguments (mkArgs r s None p e f m u) (lit "Done")
| convert_set : forall r s c p e f m u z name arguments, called name ["converttoradix"]%string -> integers arguments [z] -> (2 <= z <= 16)%Z ->
    setting_effect (mkArgs r s c p e f m u) name arguments (mkArgs r s (Some (Z.to_N z)) p e f m u) (lit "Done")
| precision_get : forall a name arguments, called name ["precision"; "p"]%string -> integers arguments [] ->
    setting_effect a name arguments a
      (lit "Precision = " ++ in_decimal (Z.of_N (a_precision a)) ++ [10%N] ++ lit "Extra Precision = " ++ in_decimal (Z.of_N (a_extra_precision a)))
| precision_set : forall r s c p e f m u z name arguments, called name ["precision"; "p"]%string -> integers arguments [z] ->
    (0 <= z)%Z -> (z + Z.of_N e <= 255)%Z ->
    setting_effect (mkArgs r s c p e f m u) name arguments (mkArgs r s c (Z.to_N z) e f m u) (lit "Done")
| precision_set_both : forall r s c p e f m u z y name arguments, called name ["precision"; "p"]%string -> integers arguments [z; y] ->
    (0 <= z)%Z -> (0 <= y)%Z -> (z + y <= 255)%Z ->
    setting_effect (mkArgs r s c p e f m u) name arguments (mkArgs r s c (Z.to_N z) (Z.to_N y) f m u) (lit "Done").

Definition missing {A} (o : option A) : bool := match o with None => true | Some _ => false end.
(** All commands, in alphabetical order, with their one-line descriptions; the first three need
    the database and / or the variables. *)
Definition help_lines (no_database no_variables : bool) : list (str * str) :=
  [ (lit "commas", lit "Retrieves or sets comma display setting");
    (lit "converttoradix", lit "Retrieves or sets the current output radix");
    (lit "fractional", lit "Retrieves or sets fractional display setting");
    (lit "help", lit "Gives help with commands");
    (lit "histcap", (if no_database then lit "(unavailable) " else []) ++ lit "Get/Set the on-disk history capacity");
    (lit "precision", lit "Retrieves or sets the current precision");
    (lit "purgevar", (if no_variables then lit "(unavailable) " else []) ++ lit "Unsets variable(s)");
    (lit "radix", lit "Retrieves or sets the current radix");
    (lit "reloadvar", (if no_database || no_variables then lit "(unavailable) " else []) ++ lit "Reloads variable(s) from the disk");
    (lit "upper", lit "Retrieves or sets upper display setting") ].
(** The name in a column of 14 characters (the longest name), then the description. *)
Definition help_text (no_database no_variables : bool) : str :=
  lit "Available commands:" ++
  List.concat (map (fun l => [10%N] ++ lit "  " ++ fst l ++ repeat 32%N (14 - List.length (fst l)) ++ lit " " ++ snd l)
                   (help_lines no_database no_variables)).
(** The manual: for every command its names, its description, and what it needs but does not have ([None]: it can be used). *)
Definition manual (no_database no_variables : bool) : list (list String.string * str * option str) :=
  [ (["help"; "h"]%string, lit "Usage: /help
       /help command_name
Alias: /h

With no arguments, lists all the available commands. If a command is given as an argument, provides more detailed help with the specified command.", None);
    (["reloadvar"]%string, lit "Usage: /reloadvar variable_name_1 [variable_name_2 [...]]

Reloads the specified variable(s) from the variable history in the on-disk database. Fails with no effect if there is no such variable in the database.",
     match no_database, no_variables with
     | true, true => Some (lit "both the on-disk database and the variable store are")
     | true, false => Some (lit "the on-disk database is")
     | false, true => Some (lit "the variable store is")
     | false, false => None
     end);
    (["purgevar"]%string, lit "Usage: /purgevar variable_name_1 [variable_name_2 [...]]

Removes the variable(s) from both the variable store and the variable history in the on-disk database, if available.",
     if no_variables then Some (lit "the variable store is") else None);
    (["histcap"]%string, lit "Usage: /histcap [size]

If a size is provided, the maximum on-disk history size is updated. If one is not provided, the current size is printed.
bcalc provides an in-memory input history as well as an on-disk one. The in-memory history is currently not limited but will, of course, be lost when the instance of bcalc exits. The on-disk history is not cleared when bcalc exits. It would be a problem for it to grow out of control, so it is limited to a certain number of inputs. After reaching the limit, old entries will be removed.
The variable history is also tied to the input history. Values will be removed from the variable history after the last input that accessed that value is removed from the input history.
Provided size will always be assumed to use radix (base) 10.",
     if no_database then Some (lit "the on-disk database is") else None);
    (["fractional"; "f"]%string, lit "Usage: /fractional [enabled]
Alias: /f

If the enabled value is ""true"", non-integer numbers will be output as fractions. If the value is ""false"", non-integer numbers will be output as decimals.
If no value is provided, the current setting value is displayed.
If a value is given, the setting value is updated.
The value given should be a boolean, which can be represented as ""true"", ""false"", ""t"", or ""f"".", None);
    (["radix"; "r"]%string, lit "Usage: /radix [value]
Alias: /r

Value represents the radix used to parse and output numbers.
If no value is provided, the current setting value is displayed.
If a value is given, the setting value is updated.
The value given should be an integer between 2 and 16 (inclusive).", None);
    (["converttoradix"]%string, lit "Usage: /converttoradix [value]

Value overrides the radix used to output numbers.
If no value is provided, the current setting value is displayed.
If a value is given, the setting value is updated.
The value given can be ""none"" or an integer between 2 and 16 (inclusive).", None);
    (["upper"]%string, lit "Usage: /upper [enabled]

If the enabled value is ""true"", digits above 9 will be output in uppercase. If ""false"", they will be output in lowercase.
If no value is provided, the current setting value is displayed.
If a value is given, the setting value is updated.
The value given should be a boolean, which can be represented as ""true"", ""false"", ""t"", or ""f"".", None);
    (["commas"; "comma"]%string, lit "Usage: /commas [enabled]
Alias: /comma

If the enabled value is ""true"", commas will be used as thousands separators when outputting numbers.
If no value is provided, the current setting value is displayed.
If a value is given, the setting value is updated.
The value given should be a boolean, which can be represented as ""true"", ""false"", ""t"", or ""f"".", None);
    (["precision"; "p"]%string, lit "Usage: /precision [value [extra]]
Alias: /p

The value represents the maximum number of digits that are displayed after the decimal point when outputting numbers.
If no value is provided, the current setting value is displayed.
If a value is given, the setting value is updated.
The value given should be representable as an 8-bit unsigned integer.
If extra is given, it should also be representable as an 8-bit unsigned integer.
This will represent the additional precision that is stored internally but not displayed.
This is only really relevant for operations that cannot be done with infinite precision.
For example: sqrt(2)
value + extra must also be representable as an 8-bit unsigned integer.", None) ].
(** [text] describes the command called [topic]: it is the description in the manual, followed by the reason if the command
    cannot be used. *)
Definition describes (no_database no_variables : bool) (topic text : str) : Prop :=
  exists names body lacking, In (names, body, lacking) (manual no_database no_variables) /\ called topic names /\
    text = body ++ match lacking with
                   | Some what => lit "

This command is currently unavailable because " ++ what ++ lit " unavailable."
                   | None => []
                   end.
(** Every name a command goes by. *)
Definition all_names : list str :=
  map lit ["help"; "h"; "reloadvar"; "purgevar"; "histcap"; "fractional"; "f"; "radix"; "r"; "converttoradix";
           "upper"; "commas"; "comma"; "precision"; "p"]%string.

(** ** Complaints (C70) *)

(** A fraction in decimal: "7", "-3/2". *)
Definition fraction_text (q : Q) : str :=
  match Qden q with
  | 1%positive => in_decimal (Qnum q)
  | d => in_decimal (Qnum q) ++ lit "/" ++ in_decimal (Zpos d)
  end.
(** How messages name a token. *)
Definition token_text (t : token) : str :=
  match t with
  | TVariable y => lit "Variable '" ++ y ++ lit "'"
  | TAssign => lit "Assignment Operator (=)"
  | TComma => lit "Comma"
  | TNumber v => lit "Number (" ++ fraction_text v ++ lit ")"
  | TOpen => lit "Open Parenthesis"
  | TClose => lit "Close Parenthesis"
  | TBin Add => lit "Addition Operator (+)"
  | TBin Subtract => lit "Subtraction Operator (-)"
  | TBin Multiply => lit "Multiplication Operator (*)"
  | TBin Divide => lit "Division Operator (/)"
  | TBin Modulus => lit "Modulus Operator (%)"
  | TBin Exponent => lit "Exponentiation Operator (^)"
  | TUn SquareRoot => lit "Square Root Operator (sqrt)"
  | TUn Negate => lit "Negation Operator (-)"
  | TUn AbsoluteValue => lit "Absolute Value Operator (abs)"
  | TFun FMax => lit "Max Function"
  | TFun FMin => lit "Min Function"
  end.
(** What is wrong with an argument text, and where: positions are counted from the beginning of
    the argument text.  Words that are no tokens come first. *)
Inductive lexical_complaint (s : str) : str -> position -> Prop :=
| lc_non_ascii : forall pre c post, s = pre ++ c :: post -> all_ascii pre -> (128 <= c)%N ->
    lexical_complaint s (lit "Non-ASCII data in input") (mkPos (List.length pre) 1)
| lc_word : forall w i, all_ascii s -> ~ command_line s -> bad_word 10 s w i ->
    lexical_complaint s (lit "Invalid variable name: '" ++ w ++ lit "'") (mkPos i (List.length w)).
(** What is wrong with the tokens of an integer list: the first of these. *)
Inductive int_fault : list (positioned token) -> str -> position -> Prop :=
| if_decimal : forall v p ts, (forall z, ~ (v == inject_Z z)%Q) ->
    int_fault (mkPositioned (TNumber v) p :: ts) (lit "Expected an integer, found decimal: " ++ fraction_text v) p
| if_large : forall v z p ts, (v == inject_Z z)%Q -> (2 ^ 63 <= z)%Z ->
    int_fault (mkPositioned (TNumber v) p :: ts) (lit "Value must be representable as a 64-bit signed integer") p
| if_next : forall v z p ts text q, (v == inject_Z z)%Q -> (0 <= z < 2 ^ 63)%Z -> int_fault ts text q ->
    int_fault (mkPositioned (TNumber v) p :: ts) text q
| if_dangling : forall p, int_fault [mkPositioned (TBin Subtract) p] (lit "Found negative sign without value") p
| if_two : forall p q ts,
    int_fault (mkPositioned (TBin Subtract) p :: mkPositioned (TBin Subtract) q :: ts) (lit "Two negative signs in a row") (from_span p q)
| if_negated : forall p t q ts text r, t <> TBin Subtract -> int_fault (mkPositioned t q :: ts) text r ->
    int_fault (mkPositioned (TBin Subtract) p :: mkPositioned t q :: ts) text r
| if_other : forall t p ts, (forall v, t <> TNumber v) -> t <> TBin Subtract ->
    int_fault (mkPositioned t p :: ts) (lit "Expected integer, found " ++ token_text t) p.
Inductive int_complaint (s : str) : str -> position -> Prop :=
| ic_lexical : forall text p, lexical_complaint s text p -> int_complaint s text p
| ic_slash : forall n rest, all_ascii s -> command_parts s n rest ->
    int_complaint s (lit "Unable to parse number: '" ++ (lit "/" ++ pd_value n) ++ lit "'") (pd_pos n)
| ic_tokens : forall ts text p, all_ascii s -> ~ command_line s -> reading 10 0 s ts -> int_fault ts text p -> int_complaint s text p.
Inductive variable_complaint (s : str) : str -> position -> Prop :=
| vc_lexical : forall text p, lexical_complaint s text p -> variable_complaint s text p
| vc_slash : forall n rest, all_ascii s -> command_parts s n rest ->
    variable_complaint s (lit "Invalid variable name: '" ++ (lit "/" ++ pd_value n) ++ lit "'") (pd_pos n)
| vc_token : forall ts names t p rest, all_ascii s -> ~ command_line s -> reading 10 0 s ts ->
    ts = names ++ mkPositioned t p :: rest -> (forall n, In n names -> exists y, pd_value n = TVariable y) -> (forall y, t <> TVariable y) ->
    variable_complaint s (lit "Expected variable, found " ++ token_text t) p.
(** The argument text is this list of integers, each with its position. *)
Definition integers_at (arguments : str) (l : list (positioned Z)) : Prop :=
  all_ascii arguments /\ ~ command_line arguments /\ exists ts, reading 10 0 arguments ts /\ int_args ts l.
(** [command_complaint a name arguments text p]: the command line [/name arguments] is an improper
    use under the settings [a]; the error is [text] at [p]. *)
Inductive command_complaint (a : args) (name arguments : positioned str) : str -> position -> Prop :=
| cc_unknown : ~ In (pd_value name) all_names ->
    command_complaint a name arguments (lit "No such command: '" ++ pd_value name ++ lit "'") (pd_pos name)
| cc_topic : forall topic, called (pd_value name) ["help"; "h"]%string -> trimmed arguments topic -> pd_value topic <> [] ->
    ~ In (pd_value topic) all_names ->
    command_complaint a name arguments (lit "No such command: '" ++ pd_value topic ++ lit "'") (pd_pos topic)
| cc_bool : called (pd_value name) ["fractional"; "f"; "upper"; "commas"; "comma"]%string ->
    ~ no_argument (pd_value arguments) -> (forall b, ~ says_bool (pd_value arguments) b) ->
    command_complaint a name arguments (lit "Invalid argument") (pd_pos arguments)
| cc_integers : forall text p, called (pd_value name) ["radix"; "r"; "converttoradix"; "precision"; "p"; "histcap"]%string ->
    (pd_value name = lit "converttoradix" -> ~ says (pd_value arguments) (lit "none")) ->
    int_complaint (pd_value arguments) text p -> command_complaint a name arguments text p
| cc_many : forall x y l, called (pd_value name) ["radix"; "r"; "converttoradix"; "histcap"]%string ->
    integers_at (pd_value arguments) (x :: l ++ [y]) ->
    command_complaint a name arguments (lit "Too many arguments") (from_span (pd_pos x) (pd_pos y))
| cc_radix_small : forall z, called (pd_value name) ["radix"; "r"; "converttoradix"]%string ->
    integers_at (pd_value arguments) [z] -> (pd_value z < 2)%Z ->
    command_complaint a name arguments (lit "Radix cannot be less than 2") (pd_pos z)
| cc_radix_large : forall z, called (pd_value name) ["radix"; "r"; "converttoradix"]%string ->
    integers_at (pd_value arguments) [z] -> (16 < pd_value z)%Z ->
    command_complaint a name arguments (lit "Radix cannot be greater than 16") (pd_pos z)
| cc_capacity : forall z, called (pd_value name) ["histcap"]%string -> integers_at (pd_value arguments) [z] -> (pd_value z < 1)%Z ->
    command_complaint a name arguments (lit "Maximum history size must be at least 1") (pd_pos z)
| cc_precision : forall z l, called (pd_value name) ["precision"; "p"]%string -> integers_at (pd_value arguments) (z :: l) -> List.length l <= 1 ->
    ~ (0 <= pd_value z <= 255)%Z ->
    command_complaint a name arguments (lit "Precision must be representable as an 8-bit unsigned integer") (pd_pos z)
| cc_extra : forall z y, called (pd_value name) ["precision"; "p"]%string -> integers_at (pd_value arguments) [z; y] ->
    (0 <= pd_value z <= 255)%Z -> ~ (0 <= pd_value y <= 255)%Z ->
    command_complaint a name arguments (lit "Extra must be representable as an 8-bit unsigned integer") (pd_pos y)
| cc_sum_one : forall z, called (pd_value name) ["precision"; "p"]%string -> integers_at (pd_value arguments) [z] ->
    (0 <= pd_value z <= 255)%Z -> (255 < pd_value z + Z.of_N (a_extra_precision a))%Z ->
    command_complaint a name arguments (lit "Sum of precision and extra must be representable as an 8-bit unsigned integer") (pd_pos z)
| cc_sum_two : forall z y, called (pd_value name) ["precision"; "p"]%string -> integers_at (pd_value arguments) [z; y] ->
    (0 <= pd_value z <= 255)%Z -> (0 <= pd_value y <= 255)%Z -> (255 < pd_value z + pd_value y)%Z ->
    command_complaint a name arguments (lit "Sum of precision and extra must be representable as an 8-bit unsigned integer")
      (from_span (pd_pos z) (pd_pos y))
| cc_many_precisions : forall x x' y l, called (pd_value name) ["precision"; "p"]%string ->
    integers_at (pd_value arguments) (x :: x' :: l ++ [y]) ->
    command_complaint a name arguments (lit "Too many arguments") (from_span (pd_pos x) (pd_pos y))
| cc_variables : forall text p, called (pd_value name) ["purgevar"; "reloadvar"]%string -> variable_complaint (pd_value arguments) text p ->
    command_complaint a name arguments text p.
