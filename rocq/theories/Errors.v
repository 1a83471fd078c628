(** Errors.v -- model of src/error.rs: the error enums, their Display texts and
    the conversions into [CalculatorFailure]. *)
From Verif Require Import Base Position Num TokenTypes.
From Coq Require Import String.
Local Open Scope string_scope.

(** The [Box<dyn std::error::Error>]s the program can produce. *)
Inductive runtime_error :=
| InternalCalculatorError (msg : str)               (* src/error.rs:28-47 *)
| CalculatorEnvironmentError (msg : str)            (* src/error.rs:49-68 *)
| CalculatorDatabaseInconsistencyError (msg : str)  (* src/error.rs:70-89 *)
| SqliteError                                       (* rusqlite::Error, text not modelled *)
| IntConversionError                                (* std TryFromIntError, src/main.rs:181-183, 277 *)
| SqliteConstraint.                                 (* rusqlite::Error: constraint failed *)

(** src/error.rs:7-14 *)
Inductive failure :=
| InputError (m : maybe_positioned str)
| RuntimeError (e : runtime_error).

(** src/error.rs:16-20 [From<Positioned<String>>] *)
Definition fail_str (x : positioned str) : failure :=
  InputError (mkMP (pd_value x) (Some (pd_pos x))).

(** src/error.rs:91-96 *)
Inductive parse_error :=
| NonAscii
| InvalidNumber (s : str)
| InvalidVariable (s : str).
(** src/error.rs:98-106 *)
Definition show_parse_error (e : parse_error) : str :=
  match e with
  | NonAscii => lit "Non-ASCII data in input"
  | InvalidNumber s => (lit "Unable to parse number: '" ++ s ++ lit "'")%list
  | InvalidVariable s => (lit "Invalid variable name: '" ++ s ++ lit "'")%list
  end.
(** src/error.rs:108-112 *)
Definition fail_parse (e : positioned parse_error) : failure :=
  InputError (mkMP (show_parse_error (pd_value e)) (Some (pd_pos e))).

(** src/error.rs:114-126 *)
Inductive syntax_error :=
| NoInput
| UnexpectedToken (t : token)
| MismatchedOpenParen
| MismatchedCloseParen
| EmptyParens
| MissingOperand (t : token)
| CommaWithoutOperandBefore
| CommaWithoutOperandAfter
| FunctionWithoutParensOrArgument (f : fname)
| MissingOperator.
(** src/error.rs:128-160 *)
Definition show_syntax_error (e : syntax_error) : str :=
  match e with
  | NoInput => lit "No input"
  | UnexpectedToken t => (lit "Unexpected token encountered: " ++ show_token t)%list
  | MismatchedOpenParen => lit "Mismatched open parenthesis"
  | MismatchedCloseParen => lit "Mismatched close parenthesis"
  | EmptyParens => lit "Empty parentheses"
  | MissingOperand t => (show_token t ++ lit " is missing a required operand")%list
  | CommaWithoutOperandBefore => lit "Comma must follow an operand"
  | CommaWithoutOperandAfter => lit "Comma must be followed by an operand"
  | FunctionWithoutParensOrArgument f =>
      (lit "Functions without parentheses are assumed to have a single argument, but none was found for "
         ++ show_fname f)%list
  | MissingOperator => lit "Missing an operator between two consecutive operands"
  end.
(** src/error.rs:162-166 *)
Definition fail_syntax (e : positioned syntax_error) : failure :=
  InputError (mkMP (show_syntax_error (pd_value e)) (Some (pd_pos e))).

(** src/error.rs:168-174 *)
Inductive math_error :=
| UnknownVariable (name : str)
| DivisionByZero
| FunctionNeedsArguments (f : fname)
| ImaginaryResult.
(** src/error.rs:176-189 *)
Definition show_math_error (e : math_error) : str :=
  match e with
  | UnknownVariable name => (lit "Unknown variable: " ++ name)%list
  | DivisionByZero => lit "Cannot divide by 0"
  | FunctionNeedsArguments f => (show_fname f ++ lit " has no arguments but requires them")%list
  | ImaginaryResult =>
      lit "Unable to take the root of a negative number except unless the degree is an odd integer"
  end.
(** src/error.rs:191-195 *)
Definition fail_math (e : math_error) (p : position) : failure :=
  InputError (mkMP (show_math_error e) (Some p)).

(** src/error.rs:197-201 *)
Inductive capability_error := NoVariableStore | NoDatabase.
(** src/error.rs:203-210 *)
Definition show_capability (e : capability_error) : str :=
  match e with
  | NoVariableStore => lit "Variable store unavailable"
  | NoDatabase => lit "Database unavailable"
  end.
(** src/error.rs:212-216 and 218-222 *)
Definition fail_capability (e : capability_error) (p : option position) : failure :=
  InputError (mkMP (show_capability e) p).
