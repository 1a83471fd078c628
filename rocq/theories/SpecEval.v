(** SpecEval.v -- the mathematical meaning of a bcalc expression, independent of the evaluator.
    Values are rationals compared with [==]; only the tree, error and state types are shared with
    the model. *)
From Verif Require Import Base SpecDecimal Position Num TokenTypes Errors SavedData Variables SyntaxTree.
From Coq Require Import Qabs Qpower String.
Local Open Scope Q_scope.

(** What evaluating an expression can come to. *)
Inductive result := Value (q : Q) | Fails (e : failure) | Crashes.
Definition stops (r : result) : Prop := match r with Value _ => False | _ => True end.

(** What the user is told, and the part of the input it is about. *)
Definition error_at (text : str) (p : position) : failure := InputError (mkMP text (Some p)).
Definition division_by_zero (p : position) : failure := error_at (lit "Cannot divide by 0") p.
Definition imaginary_result (p : position) : failure :=
  error_at (lit "Unable to take the root of a negative number except unless the degree is an odd integer") p.
Definition no_arguments (f : fname) (p : position) : failure :=
  error_at ((match f with FMax => lit "Max Function" | FMin => lit "Min Function" end) ++ lit " has no arguments but requires them")%list p.
Definition unknown_variable (x : str) (p : position) : failure := error_at (lit "Unknown variable: " ++ x)%list p.
Definition no_variable_store (p : position) : failure := error_at (lit "Variable store unavailable") p.

(** Remainder of the division truncated towards zero. *)
Definition remainder (x y r : Q) : Prop :=
  (exists q : Z, x == inject_Z q * y + r) /\ Qabs r < Qabs y /\
  (r == 0 \/ (0 < x /\ 0 < r) \/ (x < 0 /\ r < 0)).

(** The non-negative [d]-th root of [t] lies between [lo] and [hi]. *)
Definition root_between (t : Q) (d : positive) (lo hi : Q) : Prop :=
  (lo < 0 \/ lo ^ Zpos d <= t) /\ 0 <= hi /\ t <= hi ^ Zpos d.

(** [y] is the fraction [n/d] in lowest terms, and not an integer. *)
Definition fraction (y : Q) (n : Z) (d : positive) : Prop :=
  y == n # d /\ Z.gcd n (Zpos d) = 1%Z /\ (1 < d)%positive.
(** the power [x^n] exists (zero has no inverse) *)
Definition power_exists (x : Q) (n : Z) : Prop := (0 <= n)%Z \/ ~ x == 0.

(** Powers with an exact (or no) result; [p] is where errors are reported. *)
Inductive power_exact (p : position) (x y : Q) : result -> Prop :=
| pe_integer : forall z q, y == inject_Z z -> power_exists x z -> q == x ^ z ->
    power_exact p x y (Value q)
| pe_zero_inverse : x == 0 -> y < 0 -> power_exact p x y Crashes
| pe_imaginary : forall n d, fraction y n d -> power_exists x n -> x ^ n < 0 -> Z.even (Zpos d) = true ->
    power_exact p x y (Fails (imaginary_result p))
| pe_root : forall n d k q, fraction y n d -> power_exists x n ->
    inject_Z k ^ Zpos d == x ^ n -> (0 <= k)%Z \/ Z.odd (Zpos d) = true -> q == inject_Z k ->
    power_exact p x y (Value q)
| pe_small : forall n d, fraction y n d -> ~ x == 0 -> Qabs (x ^ n) < 1 ->
    0 < x ^ n \/ Z.odd (Zpos d) = true -> power_exact p x y Crashes.

(** Approximated roots: the result is on the far side of the true root, by at most [(d-1) eps], and by at
    most [eps] if [2 d eps <= 1]. *)
Definition power_root (eps x y q : Q) : Prop :=
  exists n d, fraction y n d /\ 1 <= Qabs (x ^ n) /\ (0 < x ^ n \/ Z.odd (Zpos d) = true) /\
    (forall k, ~ inject_Z k ^ Zpos d == x ^ n) /\
    (0 < q <-> 0 < x ^ n) /\
    root_between (Qabs (x ^ n)) d (Qabs q - inject_Z (Zpos d - 1) * eps) (Qabs q) /\
    (2 * inject_Z (Zpos d) * eps <= 1 -> root_between (Qabs (x ^ n)) d (Qabs q - eps) (Qabs q)).

Definition power_result (eps : Q) (p : position) (x y : Q) (r : result) : Prop :=
  power_exact p x y r \/ exists q, r = Value q /\ power_root eps x y q.

(** The largest / smallest of some values. *)
Definition extreme (f : fname) (qs : list Q) (q : Q) : Prop :=
  (exists v, In v qs /\ q == v) /\
  forall v, In v qs -> match f with FMax => v <= q | FMin => q <= v end.

Section Meaning.
  (** meaning of variables and of powers *)
  Context (lookup : str -> position -> result -> Prop) (power : position -> Q -> Q -> result -> Prop).

  Inductive binary (p : position) (x y : Q) : binop -> result -> Prop :=
  | b_add : forall q, q == x + y -> binary p x y Add (Value q)
  | b_subtract : forall q, q == x - y -> binary p x y Subtract (Value q)
  | b_multiply : forall q, q == x * y -> binary p x y Multiply (Value q)
  | b_divide : forall q, ~ y == 0 -> q * y == x -> binary p x y Divide (Value q)
  | b_divide_zero : y == 0 -> binary p x y Divide (Fails (division_by_zero p))
  | b_modulus : forall q, ~ y == 0 -> remainder x y q -> binary p x y Modulus (Value q)
  | b_modulus_zero : y == 0 -> binary p x y Modulus Crashes
  | b_power : forall r, power p x y r -> binary p x y Exponent r.

  Inductive unary (p : position) (x : Q) : unop -> result -> Prop :=
  | u_negate : forall q, q == - x -> unary p x Negate (Value q)
  | u_abs : forall q, q == Qabs x -> unary p x AbsoluteValue (Value q)
  | u_sqrt : forall r, power p x (1 # 2) r -> unary p x SquareRoot r.

  (** Operands are evaluated from left to right and the first that has no value decides. *)
  Inductive meaning : node -> result -> Prop :=
  | m_number : forall v p q, q == v -> meaning (NNum v p) (Value q)
  | m_variable : forall x p r, lookup x p r -> meaning (NVar x p) r
  | m_paren : forall p q n r, meaning n r -> meaning (NParen p q n) r
  | m_unary : forall o p n x r, meaning n (Value x) -> unary p x o r -> meaning (NUn o p n) r
  | m_unary_stop : forall o p n r, meaning n r -> stops r -> meaning (NUn o p n) r
  | m_binary : forall o p a b x y r, meaning a (Value x) -> meaning b (Value y) -> binary p x y o r ->
      meaning (NBin o p a b) r
  | m_binary_left : forall o p a b r, meaning a r -> stops r -> meaning (NBin o p a b) r
  | m_binary_right : forall o p a b x r, meaning a (Value x) -> meaning b r -> stops r ->
      meaning (NBin o p a b) r
  | m_function : forall f p ns w qs q, meanings ns qs -> extreme f qs q ->
      meaning (NFun f p ns w) (Value q)
  | m_function_empty : forall f p w, meaning (NFun f p [] w) (Fails (no_arguments f p))
  | m_function_stop : forall f p ns w r, first_stop ns r -> meaning (NFun f p ns w) r
  with meanings : list node -> list Q -> Prop :=
  | ms_nil : meanings [] []
  | ms_cons : forall n ns q qs, meaning n (Value q) -> meanings ns qs -> meanings (n :: ns) (q :: qs)
  with first_stop : list node -> result -> Prop :=
  | fs_here : forall n ns r, meaning n r -> stops r -> first_stop (n :: ns) r
  | fs_later : forall n ns q r, meaning n (Value q) -> first_stop ns r -> first_stop (n :: ns) r.
End Meaning.

Scheme meaning_mind := Minimality for meaning Sort Prop
  with meanings_mind := Minimality for meanings Sort Prop
  with first_stop_mind := Minimality for first_stop Sort Prop.
Combined Scheme meaning_mutind from meaning_mind, meanings_mind, first_stop_mind.

(** ** Variables *)

(** A stored row denotes the rational with this decimal numerator and denominator. *)
Definition row_holds (r : var_row) (v : Q) : Prop :=
  canon v /\ v_numer r = in_decimal (Qnum v) /\ v_denom r = in_decimal (Zpos (Qden v)).
(** The saved variables are well formed: one row per name, each holding a value. *)
Definition rows_ok (d : database) : Prop :=
  NoDup (map v_name (d_vars d)) /\ forall r, In r (d_vars d) -> exists v, row_holds r v.
Definition on_disk (d : database) (x : str) (v : Q) : Prop :=
  exists r, In r (d_vars d) /\ v_name r = x /\ row_holds r v.
Definition not_on_disk (d : database) (x : str) : Prop := forall r, In r (d_vars d) -> v_name r <> x.

(** What using variable [x] gives in state [s]. *)
Inductive var_result (s : env) (x : str) (p : position) : result -> Prop :=
| vr_no_store : e_vars s = None -> var_result s x p (Fails (no_variable_store p))
| vr_memory : forall m v q, e_vars s = Some m -> vs_get m x = Some v -> q == v -> var_result s x p (Value q)
| vr_disk : forall m sd v q, e_vars s = Some m -> vs_get m x = None -> e_db s = Some sd ->
    on_disk (sd_db sd) x v -> q == v -> var_result s x p (Value q)
| vr_unknown_memory : forall m, e_vars s = Some m -> vs_get m x = None -> e_db s = None ->
    var_result s x p (Fails (unknown_variable x p))
| vr_unknown : forall m sd, e_vars s = Some m -> vs_get m x = None -> e_db s = Some sd ->
    not_on_disk (sd_db sd) x -> var_result s x p (Fails (unknown_variable x p))
| vr_fault : forall m sd, e_vars s = Some m -> vs_get m x = None -> e_db s = Some sd ->
    In true (sd_faults sd) -> var_result s x p (Fails (RuntimeError SqliteError)).

(** Well-formed states: all values in lowest terms, the saved variables readable. *)
Definition env_ok (s : env) : Prop :=
  (forall m x v, e_vars s = Some m -> vs_get m x = Some v -> canon v) /\
  (forall sd, e_db s = Some sd -> rows_ok (sd_db sd)).
(** The database reports no external failure. *)
Definition no_faults (s : env) : Prop := forall sd, e_db s = Some sd -> ~ In true (sd_faults sd).

(** Two states between which nothing observable happened: same database content, same scrollback
    position, and every variable has the same value as before. *)
Definition var_value (s : env) (x : str) (v : Q) : Prop :=
  exists m, e_vars s = Some m /\
    (vs_get m x = Some v \/
     (vs_get m x = None /\ exists sd, e_db s = Some sd /\ on_disk (sd_db sd) x v)).
Definition same_values (s s' : env) : Prop :=
  (e_vars s = None <-> e_vars s' = None) /\
  (match e_db s, e_db s' with
   | None, None => True
   | Some sd, Some sd' => sd_db sd = sd_db sd' /\ sd_pos sd = sd_pos sd' /\
       exists consumed, (sd_faults sd = consumed ++ sd_faults sd')%list
   | _, _ => False
   end) /\
  forall x v, var_value s x v <-> var_value s' x v.

(** The numbers in a tree are in lowest terms (the tokenizer produces no others). *)
Inductive literals_ok : node -> Prop :=
| lo_num : forall v p, canon v -> literals_ok (NNum v p)
| lo_var : forall x p, literals_ok (NVar x p)
| lo_un : forall o p n, literals_ok n -> literals_ok (NUn o p n)
| lo_bin : forall o p a b, literals_ok a -> literals_ok b -> literals_ok (NBin o p a b)
| lo_fun : forall f p ns w, (forall n, In n ns -> literals_ok n) -> literals_ok (NFun f p ns w)
| lo_paren : forall p q n, literals_ok n -> literals_ok (NParen p q n).

(** The result an evaluation outcome stands for. *)
Definition result_of (o : outcome failure Q) : result :=
  match o with Ok v => Value v | Err e => Fails e | Panic _ => Crashes end.
(** An outcome agrees with a result (values up to [==]). *)
Definition agrees (o : outcome failure Q) (r : result) : Prop :=
  match o, r with
  | Ok v, Value q => v == q
  | Err e, Fails e' => e = e'
  | Panic _, Crashes => True
  | _, _ => False
  end.

(** Same result (values up to [==]). *)
Definition same_result (r r' : result) : Prop :=
  match r, r' with
  | Value q, Value q' => q == q'
  | Fails e, Fails e' => e = e'
  | Crashes, Crashes => True
  | _, _ => False
  end.

(** Digits kept by root extraction: the two precision settings plus one guard digit.  The
    program computes this in 8 bits: a debug build crashes on overflow ([None]), a release build
    wraps around. *)
Definition digits_kept (pr : profile) (a : args) : option N :=
  let k := (a_precision a + a_extra_precision a + 1)%N in
  if N.ltb k 256 then Some k
  else match pr with Debug => None | Release => Some (k mod 256)%N end.
(** One unit in the last kept digit. *)
Definition tolerance (radix digits : N) : Q := 1 # Z.to_pos (Z.of_N radix ^ Z.of_N digits).
(** What powers come to under the settings [a]. *)
Definition power_with (pr : profile) (a : args) (p : position) (x y : Q) (r : result) : Prop :=
  match digits_kept pr a with
  | Some k => power_result (tolerance (a_radix a) k) p x y r
  | None => r = Crashes
  end.
(** Settings are bytes, the radix is at least 1. *)
Definition settings_ok (a : args) : Prop :=
  (a_precision a < 256)%N /\ (a_extra_precision a < 256)%N /\ (1 <= a_radix a)%N.

(** A power that crashes the program (with usable precision settings): an inverse of zero, or a
    root of a number of magnitude less than one. *)
Definition crashing_power (x y : Q) : Prop :=
  (x == 0 /\ y < 0) \/
  exists n d, fraction y n d /\ ~ x == 0 /\ Qabs (x ^ n) < 1 /\ (0 < x ^ n \/ Z.odd (Zpos d) = true).

(** The fractional power [x ^ y] is not real: negative radicand, even degree. *)
Definition imaginary (x y : Q) : Prop :=
  exists n d, fraction y n d /\ power_exists x n /\ x ^ n < 0 /\ Z.even (Zpos d) = true.
