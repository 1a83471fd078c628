(** Num.v -- the contracts of the [num] crates (num-bigint 0.4.6, num-rational
    0.4.2) the code relies on.  [BigInt] is [Z], [BigUint] is [N],
    [BigRational] is [Q]; num-rational keeps every value in lowest terms with a
    positive denominator, which the model does with [Qred] (proved preserved by
    the operations that do not reduce). *)
From Verif Require Import Base.
From Coq Require Import Qabs Qround.

(** ** BigUint / BigInt text conversion *)

(** num-bigint [BigUint::from_str_radix]: digit value of a byte, 255 if none. *)
Definition digit_val (c : char) : N :=
  if N.leb 48 c && N.leb c 57 then (c - 48)%N
  else if N.leb 97 c && N.leb c 122 then (c - 97 + 10)%N
  else if N.leb 65 c && N.leb c 90 then (c - 65 + 10)%N
  else 255%N.

Fixpoint parse_digits (radix acc : N) (s : str) : option N :=
  match s with
  | [] => Some acc
  | c :: s' =>
      if N.eqb c c_underscore then parse_digits radix acc s'
      else let d := digit_val c in
           if N.ltb d radix then parse_digits radix (acc * radix + d)%N s' else None
  end.

Definition radix_ok (radix : N) : bool := N.leb 2 radix && N.leb radix 36.

(** num-bigint [BigUint::from_str_radix] after the radix assertion. *)
Definition biguint_from_str (s : str) (radix : N) : option N :=
  let s1 := match s with
            | c :: tail =>
                if N.eqb c c_plus then
                  match tail with
                  | c2 :: _ => if N.eqb c2 c_plus then s else tail
                  | [] => tail
                  end
                else s
            | [] => s
            end in
  match s1 with
  | [] => None
  | c :: _ => if N.eqb c c_underscore then None else parse_digits radix 0%N s1
  end.

(** num-bigint [BigInt::parse_bytes] / [BigInt::from_str_radix] (input is ASCII,
    hence valid UTF-8).  Panics if the radix is not in 2..=36. *)
Definition parse_bytes {E} (s : str) (radix : N) : outcome E (option Z) :=
  if radix_ok radix then
    Ok (match s with
        | c :: tail =>
            if N.eqb c c_minus then
              let s1 := match tail with
                        | c2 :: _ => if N.eqb c2 c_plus then s else tail
                        | [] => tail
                        end in
              option_map (fun n => Z.opp (Z.of_N n)) (biguint_from_str s1 radix)
            else option_map Z.of_N (biguint_from_str s radix)
        | [] => option_map Z.of_N (biguint_from_str s radix)
        end)
  else Panic BadRadix.

Definition digit_char (d : N) : char := if N.ltb d 10 then (48 + d)%N else (87 + d)%N.

Fixpoint to_digits (fuel : nat) (n radix : N) (acc : str) : str :=
  match fuel with
  | O => acc
  | S f => if N.eqb n 0 then acc
           else to_digits f (n / radix)%N radix (digit_char (n mod radix)%N :: acc)
  end.

(** num-bigint [BigUint::to_str_radix] (lower case). Panics on a bad radix. *)
Definition biguint_to_str (n radix : N) : str :=
  if N.eqb n 0 then [c_zero] else to_digits (N.to_nat (N.size n)) n radix [].

(** num-bigint [BigInt::to_str_radix] *)
Definition to_str_radix {E} (z : Z) (radix : N) : outcome E str :=
  if radix_ok radix then
    Ok (if Z.ltb z 0 then c_minus :: biguint_to_str (Z.abs_N z) radix
        else biguint_to_str (Z.abs_N z) radix)
  else Panic BadRadix.

(** [Display for BigInt], [i64], [u8], [usize]: decimal. *)
Definition show_Z (z : Z) : str :=
  if Z.ltb z 0 then c_minus :: biguint_to_str (Z.abs_N z) 10
  else biguint_to_str (Z.abs_N z) 10.
Definition show_N (n : N) : str := biguint_to_str n 10.

(** ** BigRational *)

(** [BigRational::new]: reduces; panics on a zero denominator. *)
Definition ratio_new {E} (n d : Z) : outcome E Q :=
  match d with
  | Z0 => Panic DivideByZero
  | Zpos p => Ok (Qred (n # p))
  | Zneg p => Ok (Qred (- n # p))
  end.
(** [BigRational::from(BigInt)] *)
Definition ratio_int (z : Z) : Q := z # 1.

Definition ratio_add (a b : Q) : Q := Qred (a + b).
Definition ratio_sub (a b : Q) : Q := Qred (a - b).
Definition ratio_mul (a b : Q) : Q := Qred (a * b).
Definition ratio_neg (a : Q) : Q := Qopp a.
Definition ratio_abs (a : Q) : Q := Qabs a.
(** [Div]: panics on a zero divisor. *)
Definition ratio_div {E} (a b : Q) : outcome E Q :=
  if Z.eqb (Qnum b) 0 then Panic DivideByZero else Ok (Qred (a / b)).
(** [Rem]: both numerators brought to a common denominator, then the truncated
    BigInt remainder; panics on a zero divisor.  (num-rational uses the lcm as
    common denominator, the model the product: the reduced result is the same.) *)
Definition ratio_rem {E} (a b : Q) : outcome E Q :=
  if Z.eqb (Qnum b) 0 then Panic DivideByZero
  else Ok (Qred (Z.rem (Qnum a * Zpos (Qden b)) (Qnum b * Zpos (Qden a)) # (Qden a * Qden b))).
(** [Pow<BigUint>]: powers numerator and denominator, no reduction needed. *)
Definition ratio_pow (a : Q) (n : N) : Q :=
  (Z.pow (Qnum a) (Z.of_N n)) # (match n with N0 => 1 | Npos p => Pos.pow (Qden a) p end)%positive.
(** [Inv]: panics on zero. *)
Definition ratio_inv {E} (a : Q) : outcome E Q :=
  if Z.eqb (Qnum a) 0 then Panic DivideByZero else Ok (Qinv a).

Definition ratio_is_negative (a : Q) : bool := Z.ltb (Qnum a) 0.
Definition ratio_is_zero (a : Q) : bool := Z.eqb (Qnum a) 0.
(** [Ord for Ratio] *)
Definition ratio_lt (a b : Q) : bool := match Qcompare a b with Lt => true | _ => false end.
Definition ratio_le (a b : Q) : bool := match Qcompare a b with Gt => false | _ => true end.
(** [std::cmp::max]/[min]: [max(a,b)] is [b] unless [a > b]; [min(a,b)] is [a] unless [a > b]. *)
Definition ratio_max (a b : Q) : Q := match Qcompare a b with Gt => a | _ => b end.
Definition ratio_min (a b : Q) : Q := match Qcompare a b with Gt => b | _ => a end.
(** [is_integer]: denominator is one. *)
Definition ratio_is_integer (a : Q) : bool := Pos.eqb (Qden a) 1.
(** [to_integer]/[trunc]: truncated division. *)
Definition ratio_to_integer (a : Q) : Z := Z.quot (Qnum a) (Zpos (Qden a)).
(** num-rational [Ratio::round].to_integer(): ties away from zero. *)
Definition ratio_round (a : Q) : Z :=
  let fr := Z.abs (Z.rem (Qnum a) (Zpos (Qden a))) in
  let d := Zpos (Qden a) in
  let half_or_larger := if Z.even d then Z.leb (d / 2) fr else Z.leb (d / 2 + 1) fr in
  if half_or_larger
  then if Z.leb 0 (Qnum a) then ratio_to_integer a + 1 else ratio_to_integer a - 1
  else ratio_to_integer a.

(** [Display for Ratio]: "n" or "n/d", decimal. *)
Definition show_ratio (a : Q) : str :=
  if Pos.eqb (Qden a) 1 then show_Z (Qnum a)
  else show_Z (Qnum a) ++ c_slash :: show_Z (Zpos (Qden a)).

(** A rational in lowest terms. *)
Definition canon (a : Q) : Prop := Qred a = a.
