(** Token.v -- model of the [Tokenizer] of src/token.rs. *)
From Verif Require Import Base Position Num TokenTypes Errors.
From Coq Require Import String.
Local Open Scope list_scope.

(** src/token.rs:138-146 [Tokenizer::new]: the keyword table. *)
Definition token_map : list (str * token) :=
  [ (lit "sqrt", TUn SquareRoot); (lit "abs", TUn AbsoluteValue);
    (lit "max", TFun FMax); (lit "min", TFun FMin) ].

(** [HashMap::get] *)
Fixpoint assoc {A} (k : str) (m : list (str * A)) : option A :=
  match m with
  | [] => None
  | (k', v) :: m' => if str_eqb k k' then Some v else assoc k m'
  end.

(** src/token.rs:177-189: single-character tokens. *)
Definition single_char_token (c : char) : option token :=
  if N.eqb c c_plus then Some (TBin Add)
  else if N.eqb c c_minus then Some (TBin Subtract)
  else if N.eqb c c_star then Some (TBin Multiply)
  else if N.eqb c c_slash then Some (TBin Divide)
  else if N.eqb c c_percent then Some (TBin Modulus)
  else if N.eqb c c_caret then Some (TBin Exponent)
  else if N.eqb c c_open then Some TOpen
  else if N.eqb c c_close then Some TClose
  else if N.eqb c c_eq then Some TAssign
  else if N.eqb c c_comma then Some TComma
  else None.

(** src/token.rs:287-300: strip [_], pull out the first [.] and remember its index
    in the cleaned buffer. State: cleaned buffer so far, index of the point. *)
Fixpoint clean_number (buffer : str) (clean : str) (dec : option nat) : str * option nat :=
  match buffer with
  | [] => (clean, dec)
  | c :: rest =>
      if N.eqb c c_underscore then clean_number rest clean dec
      else if N.eqb c c_dot && match dec with None => true | Some _ => false end
      then clean_number rest clean (Some (List.length clean))
      else clean_number rest (clean ++ [c]) dec
  end.

Definition lex_result A := outcome (positioned parse_error) A.

(** src/token.rs:251-326 [tokenize_on_multichar_end]. Returns the new [tokens] vector
    ([buffer] is always empty afterwards on success). *)
Definition tokenize_on_multichar_end (tokens : list (positioned token)) (buffer : str)
           (stop : nat) (radix : N) : lex_result (list (positioned token)) :=
  match buffer with
  | [] => Ok tokens
  | c0 :: _ =>
      let width := List.length buffer in
      let start := stop - width in
      if N.eqb c0 c_dollar then Ok (tokens ++ [new_raw (TVariable buffer) start width])
      else
        match assoc buffer token_map with
        | Some t => Ok (tokens ++ [new_raw t start width])
        | None =>
            let '(clean, dec) := clean_number buffer [] None in
            maybe_numer <- parse_bytes clean radix ;;
            match maybe_numer with
            | None => Err (new_raw (InvalidNumber buffer) start width)
            | Some numer =>
                let denom :=
                  match dec with
                  | Some i => Z.pow (Z.of_N radix) (Z.of_nat (List.length clean - i))
                  | None => 1%Z
                  end in
                v <- ratio_new numer denom ;;
                Ok (tokens ++ [new_raw (TNumber v) start width])
            end
        end
  end.

(** src/token.rs:173-203: the main loop over (position, chr), then the final flush. *)
Fixpoint tokenize_loop (input : str) (pos : nat) (tokens : list (positioned token))
         (buffer : str) (radix : N) : lex_result (list (positioned token)) :=
  match input with
  | [] => tokenize_on_multichar_end tokens buffer pos radix
  | c :: rest =>
      if is_ascii_whitespace c then
        tokens' <- tokenize_on_multichar_end tokens buffer pos radix ;;
        tokenize_loop rest (S pos) tokens' [] radix
      else
        match single_char_token c with
        | Some t =>
            tokens' <- tokenize_on_multichar_end tokens buffer pos radix ;;
            tokenize_loop rest (S pos) (tokens' ++ [new_raw t pos 1]) [] radix
        | None => tokenize_loop rest (S pos) tokens (buffer ++ [c]) radix
        end
  end.

(** [str::split_once(|c| c.is_ascii_whitespace())] *)
Fixpoint split_once_ws (s : str) : option (str * str) :=
  match s with
  | [] => None
  | c :: s' => if is_ascii_whitespace c then Some ([], s')
               else option_map (fun '(a, b) => (c :: a, b)) (split_once_ws s')
  end.

(** src/token.rs:208-244 [maybe_extract_command] *)
Definition maybe_extract_command (input : str) : option parsed_input :=
  let trimmed := trim_start input in
  let command_start := List.length input - List.length trimmed in
  match trimmed with
  | c :: post_slash =>
      if N.eqb c c_slash then
        match split_once_ws post_slash with
        | None =>
            Some (PCommand (new_raw post_slash command_start (List.length trimmed))
                           (new_raw [] (command_start + List.length trimmed) 0))
        | Some (prefix, suffix) =>
            let slash_len := List.length trimmed - List.length post_slash in
            Some (PCommand (new_raw prefix command_start (slash_len + List.length prefix))
                           (new_raw suffix (List.length input - List.length suffix)
                                    (List.length suffix)))
        end
      else None
  | [] => None
  end.

(** src/token.rs:161-165: index of the first non-ASCII char. *)
Fixpoint find_non_ascii (s : str) (pos : nat) : option nat :=
  match s with
  | [] => None
  | c :: s' => if is_ascii c then find_non_ascii s' (S pos) else Some pos
  end.

(** src/token.rs:154-206 [Tokenizer::tokenize] *)
Definition tokenize (input : str) (radix : N) : lex_result parsed_input :=
  match find_non_ascii input 0 with
  | Some pos => Err (new_raw NonAscii pos 1)
  | None =>
      match maybe_extract_command input with
      | Some command => Ok command
      | None => ts <- tokenize_loop input 0 [] [] radix ;; Ok (PTokens ts)
      end
  end.

(** src/token.rs:334-351 and 374-391: error translation shared by the two list readers. *)
Definition list_lex_error (e : positioned parse_error) : positioned str :=
  match pd_value e with
  | InvalidVariable s | InvalidNumber s =>
      mkPositioned (show_parse_error (InvalidVariable s)) (pd_pos e)
  | NonAscii => mkPositioned (show_parse_error NonAscii) (pd_pos e)
  end.

(** src/token.rs:353-366 *)
Fixpoint collect_variables (ts : list (positioned token)) (result : list (positioned str))
  : outcome (positioned str) (list (positioned str)) :=
  match ts with
  | [] => Ok result
  | t :: ts' =>
      match pd_value t with
      | TVariable s => collect_variables ts' (result ++ [mkPositioned s (pd_pos t)])
      | tok => Err (mkPositioned (lit "Expected variable, found " ++ show_token tok) (pd_pos t))
      end
  end.

(** src/token.rs:328-367 [tokenize_variable_list] *)
Definition tokenize_variable_list (input : str) : outcome (positioned str) (list (positioned str)) :=
  match tokenize input 10 with
  | Panic p => Panic p
  | Err e => Err (list_lex_error e)
  | Ok (PCommand name _) =>
      Err (mkPositioned (show_parse_error (InvalidVariable (c_slash :: pd_value name))) (pd_pos name))
  | Ok (PTokens ts) => collect_variables ts []
  end.

Definition i64_min : Z := (- 2 ^ 63)%Z.
Definition i64_max : Z := (2 ^ 63 - 1)%Z.
(** [i64::try_from(&BigInt)] *)
Definition i64_try_from (z : Z) : option Z :=
  if Z.leb i64_min z && Z.leb z i64_max then Some z else None.

(** src/token.rs:407-411: unary [-] on an i64 overflows only on [i64::MIN]. *)
Definition i64_neg {E} (pr : profile) (z : Z) : outcome E Z :=
  if Z.eqb z i64_min then match pr with Debug => Panic ArithOverflow | Release => Ok z end
  else Ok (- z)%Z.

(** src/token.rs:393-454 *)
Fixpoint collect_ints (pr : profile) (ts : list (positioned token)) (neg : option position)
         (result : list (positioned Z)) : outcome (positioned str) (list (positioned Z)) :=
  match ts with
  | [] =>
      match neg with
      | Some neg_pos => Err (mkPositioned (lit "Found negative sign without value") neg_pos)
      | None => Ok result
      end
  | t :: ts' =>
      match pd_value t with
      | TNumber number =>
          if negb (Pos.eqb (Qden number) 1) then
            Err (mkPositioned (lit "Expected an integer, found decimal: " ++ show_ratio number)
                              (pd_pos t))
          else
            match i64_try_from (Qnum number) with
            | Some integer =>
                match neg with
                | Some neg_pos =>
                    n <- i64_neg pr integer ;;
                    collect_ints pr ts' None
                      (result ++ [mkPositioned n (from_span neg_pos (pd_pos t))])
                | None => collect_ints pr ts' None (result ++ [mkPositioned integer (pd_pos t)])
                end
            | None =>
                Err (mkPositioned (lit "Value must be representable as a 64-bit signed integer")
                                  (pd_pos t))
            end
      | TBin Subtract =>
          match neg with
          | Some prev =>
              Err (mkPositioned (lit "Two negative signs in a row") (from_span prev (pd_pos t)))
          | None => collect_ints pr ts' (Some (pd_pos t)) result
          end
      | tok => Err (mkPositioned (lit "Expected integer, found " ++ show_token tok) (pd_pos t))
      end
  end.

(** src/token.rs:369-455 [tokenize_int_list] *)
Definition tokenize_int_list (pr : profile) (input : str) (radix : N)
  : outcome (positioned str) (list (positioned Z)) :=
  match tokenize input radix with
  | Panic p => Panic p
  | Err e => Err (list_lex_error e)
  | Ok (PCommand name _) =>
      Err (mkPositioned (show_parse_error (InvalidNumber (c_slash :: pd_value name))) (pd_pos name))
  | Ok (PTokens ts) => collect_ints pr ts None []
  end.
