(** CommandLine.v -- the command line: what clap makes of [Args] (src/main.rs:44-94) in [Args::parse()]
    (src/main.rs:97), and the whole process around [main].  clap 4.0.29 is not part of /repo: its rules
    are transcribed from its documented behaviour (derive API, no settings beyond the attributes in
    src/main.rs): long options are the field names in kebab case, short ones the first letter where
    [short] is given; every option may be given once; a word beginning with '-' (other than "-") is
    never taken as the value of the option before it.  Arguments are Unicode; the texts of help,
    version and error messages are not modelled. *)
From Verif Require Import Base Position Num TokenTypes Errors Token SavedData Variables InputHistory
  SyntaxTree Commands Calculate Editor Main.
From Coq Require Import String.
Local Open Scope list_scope.

(** The options with a value: src/main.rs:48-50, 53-54, 68-70, 73-74, 77-78. *)
Inductive cli_option := ORadix | OInput | OConvertToRadix | OPrecision | OExtraPrecision.
(** The options without: src/main.rs:58-59, 63-64, 82-83, 87-88, 92-93; [--help] and [--version] come
    with [#[command(version, about)]] (src/main.rs:45). *)
Inductive cli_flag := FAlternateScreen | FNoDb | FFractional | FCommas | FUpper | FHelp | FVersion.
Inductive cli_name := NOption (o : cli_option) | NFlag (f : cli_flag).

(** The long names: src/main.rs:46-94. *)
Definition long_names : list (str * cli_name) :=
  [(lit "radix", NOption ORadix); (lit "input", NOption OInput);
   (lit "alternate-screen", NFlag FAlternateScreen); (lit "no-db", NFlag FNoDb);
   (lit "convert-to-radix", NOption OConvertToRadix); (lit "precision", NOption OPrecision);
   (lit "extra-precision", NOption OExtraPrecision); (lit "fractional", NFlag FFractional);
   (lit "commas", NFlag FCommas); (lit "upper", NFlag FUpper);
   (lit "help", NFlag FHelp); (lit "version", NFlag FVersion)].
(** The short names: the fields with [short] in src/main.rs:46-94. *)
Definition short_names : list (str * cli_name) :=
  [(lit "r", NOption ORadix); (lit "i", NOption OInput); (lit "a", NFlag FAlternateScreen);
   (lit "p", NOption OPrecision); (lit "f", NFlag FFractional); (lit "c", NFlag FCommas);
   (lit "u", NFlag FUpper); (lit "h", NFlag FHelp); (lit "V", NFlag FVersion)].
Fixpoint look_up (table : list (str * cli_name)) (s : str) : option cli_name :=
  match table with
  | [] => None
  | (name, n) :: table' => if str_eqb s name then Some n else look_up table' s
  end.

(** [value_parser!(u8).range(lo..=hi)]: the text is read as an i64 ([i64::from_str]: an optional sign and
    decimal digits) and must be in the range. *)
Fixpoint read_digits (s : str) (acc : N) : option N :=
  match s with
  | [] => Some acc
  | c :: s' => if N.leb 48 c && N.leb c 57 then read_digits s' (10 * acc + (c - 48))%N else None
  end.
Definition read_u8 (lo hi : N) (s : str) : option N :=
  let '(negative, digits) :=
    match s with
    | c :: s' => if N.eqb c c_plus then (false, s') else if N.eqb c c_minus then (true, s') else (false, s)
    | [] => (false, [])
    end in
  match digits with
  | [] => None
  | _ => match read_digits digits 0 with
         | Some n => if negative && negb (N.eqb n 0) then None
                     else if N.leb lo n && N.leb n hi then Some n else None
         | None => None
         end
  end.

(** The matches so far: what was given (src/main.rs:46-94). *)
Record given := mkGiven {
  v_radix : option N; v_input : option str; v_alternate : bool; v_no_db : bool; v_convert : option N;
  v_precision : option N; v_extra : option N; v_fractional : bool; v_commas : bool; v_upper : bool }.
Definition nothing_given : given := mkGiven None None false false None None None false false false.

(** What [Args::parse()] comes to: the options; or the help or version text is printed and the process
    exits with status 0; or an error message is, and it exits with status 2. *)
Inductive parsed := Accepted (o : options) | Shows (f : cli_flag) | Rejected.

(** A flag is met: src/main.rs:58-93 ([ArgAction::SetTrue], once). *)
Definition set_flag (f : cli_flag) (g : given) : given + parsed :=
  match f with
  | FHelp => inr (Shows FHelp)
  | FVersion => inr (Shows FVersion)
  | FAlternateScreen =>
      if v_alternate g then inr Rejected
      else inl (mkGiven (v_radix g) (v_input g) true (v_no_db g) (v_convert g) (v_precision g) (v_extra g) (v_fractional g) (v_commas g) (v_upper g))
  | FNoDb =>
      if v_no_db g then inr Rejected
      else inl (mkGiven (v_radix g) (v_input g) (v_alternate g) true (v_convert g) (v_precision g) (v_extra g) (v_fractional g) (v_commas g) (v_upper g))
  | FFractional =>
      if v_fractional g then inr Rejected
      else inl (mkGiven (v_radix g) (v_input g) (v_alternate g) (v_no_db g) (v_convert g) (v_precision g) (v_extra g) true (v_commas g) (v_upper g))
  | FCommas =>
      if v_commas g then inr Rejected
      else inl (mkGiven (v_radix g) (v_input g) (v_alternate g) (v_no_db g) (v_convert g) (v_precision g) (v_extra g) (v_fractional g) true (v_upper g))
  | FUpper =>
      if v_upper g then inr Rejected
      else inl (mkGiven (v_radix g) (v_input g) (v_alternate g) (v_no_db g) (v_convert g) (v_precision g) (v_extra g) (v_fractional g) (v_commas g) true)
  end.
(** An option gets its value ([ArgAction::Set], once), with the ranges of src/main.rs:49, 69, 73, 77. *)
Definition set_option (o : cli_option) (v : str) (g : given) : given + parsed :=
  match o with
  | ORadix =>
      match v_radix g, read_u8 2 16 v with
      | None, Some n => inl (mkGiven (Some n) (v_input g) (v_alternate g) (v_no_db g) (v_convert g) (v_precision g) (v_extra g) (v_fractional g) (v_commas g) (v_upper g))
      | _, _ => inr Rejected
      end
  | OInput =>
      match v_input g with
      | None => inl (mkGiven (v_radix g) (Some v) (v_alternate g) (v_no_db g) (v_convert g) (v_precision g) (v_extra g) (v_fractional g) (v_commas g) (v_upper g))
      | Some _ => inr Rejected
      end
  | OConvertToRadix =>
      match v_convert g, read_u8 1 16 v with
      | None, Some n => inl (mkGiven (v_radix g) (v_input g) (v_alternate g) (v_no_db g) (Some n) (v_precision g) (v_extra g) (v_fractional g) (v_commas g) (v_upper g))
      | _, _ => inr Rejected
      end
  | OPrecision =>
      match v_precision g, read_u8 0 255 v with
      | None, Some n => inl (mkGiven (v_radix g) (v_input g) (v_alternate g) (v_no_db g) (v_convert g) (Some n) (v_extra g) (v_fractional g) (v_commas g) (v_upper g))
      | _, _ => inr Rejected
      end
  | OExtraPrecision =>
      match v_extra g, read_u8 0 255 v with
      | None, Some n => inl (mkGiven (v_radix g) (v_input g) (v_alternate g) (v_no_db g) (v_convert g) (v_precision g) (Some n) (v_fractional g) (v_commas g) (v_upper g))
      | _, _ => inr Rejected
      end
  end.

(** At the end: the defaults of src/main.rs:48, 73, 77. *)
Definition or_default (v : option N) (d : N) : N := match v with Some n => n | None => d end.
Definition finish_args (g : given) : options :=
  mkOptions (mkArgs (or_default (v_radix g) 10) (v_alternate g) (v_convert g) (or_default (v_precision g) 5)
                    (or_default (v_extra g) 10) (v_fractional g) (v_commas g) (v_upper g))
            (v_input g) (v_no_db g).

(** A word "-xyz": letters of flags, then possibly the letter of an option and its value, with or
    without '='; [Some o]: the value is the next word. *)
Fixpoint short_cluster (letters : str) (g : given) : (given * option cli_option) + parsed :=
  match letters with
  | [] => inl (g, None)
  | c :: rest =>
      match look_up short_names [c] with
      | Some (NFlag f) =>
          match set_flag f g with inl g' => short_cluster rest g' | inr stop => inr stop end
      | Some (NOption o) =>
          match rest with
          | [] => inl (g, Some o)
          | c' :: v =>
              match set_option o (if N.eqb c' 61 then v else rest) g with   (* = *)
              | inl g' => inl (g', None)
              | inr stop => inr stop
              end
          end
      | None => inr Rejected
      end
  end.
(** A word "--name" or "--name=value". *)
Fixpoint split_equals (s : str) : str * option str :=
  match s with
  | [] => ([], None)
  | c :: s' => if N.eqb c 61 then ([], Some s') else let '(name, v) := split_equals s' in (c :: name, v)
  end.
Definition long_word (s : str) (g : given) : (given * option cli_option) + parsed :=
  let '(name, v) := split_equals s in
  match look_up long_names name, v with
  | Some (NFlag f), None => match set_flag f g with inl g' => inl (g', None) | inr stop => inr stop end
  | Some (NOption o), None => inl (g, Some o)
  | Some (NOption o), Some v => match set_option o v g with inl g' => inl (g', None) | inr stop => inr stop end
  | _, _ => inr Rejected
  end.

(** The words one after the other; [waiting]: the option whose value is to come. *)
Fixpoint parse_words (words : list str) (waiting : option cli_option) (g : given) : parsed :=
  match words with
  | [] => match waiting with Some _ => Rejected | None => Accepted (finish_args g) end
  | word :: rest =>
      let continue (r : (given * option cli_option) + parsed) :=
        match waiting, r with
        | Some _, _ => Rejected
        | None, inl (g', w') => parse_words rest w' g'
        | None, inr stop => stop
        end in
      let value :=
        match waiting with
        | None => Rejected                                      (* there are no positional arguments *)
        | Some o => match set_option o word g with inl g' => parse_words rest None g' | inr stop => stop end
        end in
      match word with
      | [] => value
      | c :: word1 =>
          if N.eqb c c_minus
          then match word1 with
               | [] => value                                    (* "-" *)
               | c' :: word2 =>
                   if N.eqb c' c_minus
                   then match word2 with
                        | [] => match waiting, rest with None, [] => Accepted (finish_args g) | _, _ => Rejected end   (* "--" *)
                        | _ => continue (long_word word2 g)
                        end
                   else continue (short_cluster word1 g)
               end
          else value
      end
  end.
(** src/main.rs:97: [Args::parse()], of the words after the name of the program. *)
Definition parse_args (words : list str) : parsed := parse_words words None nothing_given.

(** The whole process: src/main.rs:96-142.  [None]: it ended in [Args::parse()]; nothing outside it but
    the standard streams has been used. *)
Definition process (pr : profile) (ord : nat -> list str -> list str) (words : list str) (m : machine) (evs : list event)
  : option outside * option N :=
  match parse_args words with
  | Accepted o => let w := main pr ord o m evs in (Some w, exit_status (out_ending w))
  | Shows _ => (None, Some 0%N)
  | Rejected => (None, Some 2%N)
  end.
