(** TokenTypes.v -- the token enums of src/token.rs and their Display texts. *)
From Verif Require Import Base Position Num.
From Coq Require Import String.
Local Open Scope string_scope.

(** src/token.rs:8-13 *)
Inductive unop := SquareRoot | Negate | AbsoluteValue.
(** src/token.rs:15-23 *)
Definition show_unop (o : unop) : str :=
  match o with
  | SquareRoot => lit "Square Root Operator (sqrt)"
  | Negate => lit "Negation Operator (-)"
  | AbsoluteValue => lit "Absolute Value Operator (abs)"
  end.

(** src/token.rs:25-33 *)
Inductive binop := Add | Subtract | Multiply | Divide | Modulus | Exponent.
(** derived [PartialEq] *)
Definition binop_eqb (a b : binop) : bool :=
  match a, b with
  | Add, Add | Subtract, Subtract | Multiply, Multiply | Divide, Divide
  | Modulus, Modulus | Exponent, Exponent => true
  | _, _ => false
  end.

(** src/token.rs:37-42 [ORDERED_BINARY_OPERATORS] *)
Definition ordered_binary_operators : list (list binop) :=
  [ [Exponent]; [Modulus]; [Multiply; Divide]; [Add; Subtract] ].

(** src/token.rs:44-55 *)
Definition show_binop (o : binop) : str :=
  match o with
  | Add => lit "Addition Operator (+)"
  | Subtract => lit "Subtraction Operator (-)"
  | Multiply => lit "Multiplication Operator (*)"
  | Divide => lit "Division Operator (/)"
  | Modulus => lit "Modulus Operator (%)"
  | Exponent => lit "Exponentiation Operator (^)"
  end.

(** src/token.rs:57-61 *)
Inductive fname := FMax | FMin.
(** src/token.rs:63-70 *)
Definition show_fname (f : fname) : str :=
  match f with FMax => lit "Max Function" | FMin => lit "Min Function" end.

(** src/token.rs:72-83 *)
Inductive token :=
| TVariable (name : str)
| TAssign
| TComma
| TNumber (v : Q)
| TOpen
| TClose
| TBin (o : binop)
| TUn (o : unop)
| TFun (f : fname).

(** src/token.rs:85-99 *)
Definition show_token (t : token) : str :=
  match t with
  | TVariable s => (lit "Variable '" ++ s ++ lit "'")%list
  | TAssign => lit "Assignment Operator (=)"
  | TComma => lit "Comma"
  | TNumber n => (lit "Number (" ++ show_ratio n ++ lit ")")%list
  | TOpen => lit "Open Parenthesis"
  | TClose => lit "Close Parenthesis"
  | TBin o => show_binop o
  | TUn o => show_unop o
  | TFun f => show_fname f
  end.

(** src/token.rs:125-131 *)
Inductive parsed_input :=
| PTokens (ts : list (positioned token))
| PCommand (name args : positioned str).
