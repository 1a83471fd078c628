(** Base.v -- vocabulary shared by the whole model of bytesized/bcalc.
    No code of /repo lives here except where cited; these are the Rust
    standard-library notions the code relies on. *)
From Coq Require Import String Ascii.
From Coq Require Export List ZArith NArith QArith Lia Bool Arith.
Export ListNotations.
Open Scope nat_scope.

(** A Rust [char] is its code point; a [&str]/[String] is its sequence of
    chars.  Every string the program indexes by byte offset has been checked to
    be ASCII first (src/token.rs:161-165, src/main.rs:307), where byte offsets
    and char offsets coincide. *)
Definition char := N.
Definition str := list char.

(** String literals: [lit "abc"] is the list of code points. *)
Fixpoint lit (s : string) : str :=
  match s with
  | EmptyString => []
  | String a s' => N_of_ascii a :: lit s'
  end.

Fixpoint str_eqb (a b : str) : bool :=
  match a, b with
  | [], [] => true
  | x :: a', y :: b' => N.eqb x y && str_eqb a' b'
  | _, _ => false
  end.

(** Byte-wise lexicographic order of Rust's [String: Ord] (on ASCII). *)
Fixpoint str_leb (a b : str) : bool :=
  match a, b with
  | [], _ => true
  | _ :: _, [] => false
  | x :: a', y :: b' => if N.eqb x y then str_leb a' b' else N.ltb x y
  end.

(** Named characters used by the code. *)
Definition c_plus : char := 43%N.     (* + *)
Definition c_minus : char := 45%N.    (* - *)
Definition c_star : char := 42%N.     (* * *)
Definition c_slash : char := 47%N.    (* / *)
Definition c_percent : char := 37%N.  (* % *)
Definition c_caret : char := 94%N.    (* ^ *)
Definition c_open : char := 40%N.     (* ( *)
Definition c_close : char := 41%N.    (* ) *)
Definition c_eq : char := 61%N.       (* = *)
Definition c_comma : char := 44%N.    (* , *)
Definition c_dollar : char := 36%N.   (* $ *)
Definition c_dot : char := 46%N.      (* . *)
Definition c_underscore : char := 95%N. (* _ *)
Definition c_zero : char := 48%N.     (* 0 *)
Definition c_space : char := 32%N.
Definition c_newline : char := 10%N.

(** [char::is_ascii] *)
Definition is_ascii (c : char) : bool := N.ltb c 128.

(** [char::is_ascii_whitespace]: space, \t, \n, \x0C, \r (not \x0B). *)
Definition is_ascii_whitespace (c : char) : bool :=
  N.eqb c 32 || N.eqb c 9 || N.eqb c 10 || N.eqb c 12 || N.eqb c 13.

(** [char::is_whitespace] restricted to ASCII chars: \t \n \x0B \x0C \r and space.
    Used by [str::trim_start]/[str::trim], which the code only applies to ASCII text. *)
Definition is_whitespace (c : char) : bool :=
  N.eqb c 32 || (N.leb 9 c && N.leb c 13).

(** [char::to_ascii_uppercase], [str::make_ascii_uppercase] *)
Definition to_ascii_uppercase (c : char) : char :=
  if N.leb 97 c && N.leb c 122 then (c - 32)%N else c.
(** [str::to_lowercase] on ASCII text *)
Definition to_ascii_lowercase (c : char) : char :=
  if N.leb 65 c && N.leb c 90 then (c + 32)%N else c.

(** [str::trim_start], [str::trim] on ASCII text *)
Fixpoint trim_start (s : str) : str :=
  match s with
  | [] => []
  | c :: s' => if is_whitespace c then trim_start s' else s
  end.
Definition trim (s : str) : str := rev (trim_start (rev (trim_start s))).

(** Why a Rust panic happens.  [OutOfFuel] is not a behaviour of the program: it
    marks exhaustion of a model loop's fuel and is proved unreachable. *)
Inductive panic :=
| DivideByZero        (* num: "attempt to divide by zero" / "denominator == 0" *)
| BadRadix            (* num: "The radix must be within 2...36" *)
| ArithOverflow       (* u8/usize overflow with overflow checks on *)
| IndexOutOfBounds    (* slice / Vec / String index *)
| UnwrapFailed        (* Option::unwrap on None, explicit panic! in helpers *)
| OperatorTableMissing (* src/syntax_tree.rs:591 *)
| TableInconsistent   (* src/commands.rs:78,84,88,91 *)
| OutOfFuel.

(** Result of a Rust computation returning [Result<A, E>]. *)
Inductive outcome (E A : Type) :=
| Ok (a : A)
| Err (e : E)
| Panic (p : panic).
Arguments Ok {E A} a.
Arguments Err {E A} e.
Arguments Panic {E A} p.

(** The [?] operator. *)
Definition bind {E A B} (x : outcome E A) (f : A -> outcome E B) : outcome E B :=
  match x with
  | Ok a => f a
  | Err e => Err e
  | Panic p => Panic p
  end.
Notation "x <- e ;; f" := (bind e (fun x => f)) (at level 61, e at next level, right associativity).
Notation "' p <- e ;; f" := (bind e (fun p => f)) (at level 61, p pattern, e at next level, right associativity).

Definition map_err {E F A} (f : E -> F) (x : outcome E A) : outcome F A :=
  match x with
  | Ok a => Ok a
  | Err e => Err (f e)
  | Panic p => Panic p
  end.

(** Build profile: Cargo's default [dev] profile panics on fixed-width overflow,
    [release] wraps (Cargo.toml defines no profile section). *)
Inductive profile := Debug | Release.

(** [u8 + u8] *)
Definition u8_add {E} (pr : profile) (a b : N) : outcome E N :=
  let s := (a + b)%N in
  if N.ltb s 256 then Ok s
  else match pr with Debug => Panic ArithOverflow | Release => Ok (s mod 256)%N end.

(** Bounded iteration with binary fuel: runs [step] at most [p] times, stopping
    at the first [inr].  Used for the two numeric [loop]s of src/operations.rs. *)
Fixpoint iter_until {St R : Type} (p : positive) (step : St -> St + R) (s : St) : St + R :=
  match p with
  | xH => step s
  | xO p' => match iter_until p' step s with
             | inl s' => iter_until p' step s'
             | inr r => inr r
             end
  | xI p' => match step s with
             | inl s1 => match iter_until p' step s1 with
                         | inl s' => iter_until p' step s'
                         | inr r => inr r
                         end
             | inr r => inr r
             end
  end.
