(** Report.v -- what the process writes to its standard error: [eprintln!] of [main] (src/main.rs:114) and what the Rust
    runtime prints for the value [main] returns: [main] returns [Result<(), Box<dyn Error>>] (src/main.rs:96), and for
    [Err(e)] the standard library writes [Error: {e:?}] and a newline. *)
From Verif Require Import Base Position Num TokenTypes Errors Token SavedData Variables InputHistory
  SyntaxTree Commands Calculate Editor Main.
From Coq Require Import String.
Local Open Scope list_scope.

(** [{:?}] of a [char] inside a [str].  Simplified: control characters without a letter of their own and characters that
    cannot be printed are not turned into [\u{..}]; no message of the program contains any. *)
Definition debug_char (c : char) : str :=
  if N.eqb c 34 || N.eqb c 92 then [92%N; c]
  else if N.eqb c 10 then [92%N; 110%N]
  else if N.eqb c 13 then [92%N; 114%N]
  else if N.eqb c 9 then [92%N; 116%N]
  else if N.eqb c 0 then [92%N; 48%N]
  else [c].
(** [{:?}] of a [String] *)
Definition debug_str (s : str) : str := [34%N] ++ flat_map debug_char s ++ [34%N].
(** src/error.rs:28-31, 49-52, 70-73: [#[derive(Debug)]] of a structure with the one field [message]. *)
Definition debug_struct (name : str) (message : str) : str := name ++ lit " { message: " ++ debug_str message ++ lit " }".
(** [{:?}] of the error [main] returns.  [foreign] is the text for errors which are not the program's own ([VarError],
    [io::Error], rusqlite's): it is the system's business. *)
Definition debug_error (foreign : main_error -> str) (e : main_error) : str :=
  match e with
  | Runtime (InternalCalculatorError m) => debug_struct (lit "InternalCalculatorError") m
  | Runtime (CalculatorEnvironmentError m) => debug_struct (lit "CalculatorEnvironmentError") m
  | Runtime (CalculatorDatabaseInconsistencyError m) => debug_struct (lit "CalculatorDatabaseInconsistencyError") m
  | Runtime IntConversionError => lit "TryFromIntError(())"
  | Runtime SqliteError | Runtime SqliteConstraint | BadRoot | DirectoryFailed | TerminalFailed => foreign e
  end.
(** The standard error at the end of (or so far in) a run: src/main.rs:114, then the runtime's part.  [crash] is the text of
    the panic message. *)
Definition standard_error (foreign : main_error -> str) (crash : panic -> str) (r : outside) : str :=
  out_stderr r ++
  match out_ending r with
  | FailedWith e => lit "Error: " ++ debug_error foreign e ++ [c_newline]
  | Panicked p => crash p
  | Succeeded | Running => []
  end.
