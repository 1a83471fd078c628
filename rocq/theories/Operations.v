(** Operations.v -- model of src/operations.rs. *)
From Verif Require Import Base Num TokenTypes Errors.
From Coq Require Import Qabs.
Local Open Scope list_scope.

(** ** make_decimal_string (src/operations.rs:14-74) *)

(** [format!("{:0>width$}", s)] *)
Definition pad_left_zero (s : str) (width : nat) : str :=
  repeat c_zero (width - length s) ++ s.

(** [str::trim_end_matches('0')] *)
Fixpoint drop_zeros (s : str) : str :=
  match s with
  | c :: s' => if N.eqb c c_zero then drop_zeros s' else s
  | [] => []
  end.
Definition trim_end_zeros (s : str) : str := rev (drop_zeros (rev s)).

(** src/operations.rs:57-64: [rchunks(3).rev()...join(",")].  Chunks of three are
    cut from the right end, so on the reversed digits: three characters, then a
    comma if anything is left, and so on. *)
Fixpoint comma_rev (r : str) : str :=
  match r with
  | a :: b :: c :: rest =>
      match rest with
      | [] => r
      | _ => a :: b :: c :: c_comma :: comma_rev rest
      end
  | _ => r
  end.
Definition insert_commas (s : str) : str := rev (comma_rev (rev s)).

(** src/operations.rs:14-74.  [radix], [precision] are u8. *)
Definition make_decimal_string {E} (value : Q) (radix precision : N) (commas upper : bool)
  : outcome E str :=
  let sign_str := if ratio_lt value (ratio_int 0) then [c_minus] else [] in
  let radix_power := Z.pow (Z.of_N radix) (Z.of_N precision) in
  let multiplied := ratio_abs (ratio_mul value (ratio_int radix_power)) in
  let precise := ratio_is_integer multiplied in
  let rounded := ratio_round multiplied in
  let int_value := Z.quot rounded radix_power in
  fractional <-
    (if N.eqb precision 0 then Ok []
     else
       let fractional_value := Z.rem rounded radix_power in
       digits <- to_str_radix fractional_value radix ;;
       let fs := pad_left_zero digits (N.to_nat precision) in
       let fs := if upper then map to_ascii_uppercase fs else fs in
       Ok (if precise then trim_end_zeros fs else fs)) ;;
  int_string <- to_str_radix int_value radix ;;
  let int_string := if upper then map to_ascii_uppercase int_string else int_string in
  let int_commas := if commas then insert_commas int_string else int_string in
  Ok (match fractional with
      | [] => sign_str ++ int_commas
      | _ => sign_str ++ int_commas ++ c_dot :: fractional
      end).

(** ** exponentiate (src/operations.rs:76-191) *)

(** src/operations.rs:124-126 [f_magnitude]: |x^d - r| for an integer x *)
Definition f_magnitude (radicand : Q) (degree : N) (x : Z) : Q :=
  ratio_abs (ratio_sub (ratio_pow (ratio_int x) degree) radicand).

(** src/operations.rs:127-130 [next_x]: one Newton step; the division panics when [x] is 0. *)
Definition next_x {E} (radicand : Q) (degree : N) (x : Q) : outcome E Q :=
  let degree_dec := (degree - 1)%N in
  ratio_div
    (ratio_add radicand (ratio_mul (ratio_int (Z.of_N degree_dec)) (ratio_pow x degree)))
    (ratio_mul (ratio_int (Z.of_N degree)) (ratio_pow x degree_dec)).

(** src/operations.rs:152-166: one iteration of the binary search on
    [(lower_bound, upper_bound)]; [inr] when [span > 0] fails. *)
Definition bisect_step (radicand : Q) (degree : N) (b : Z * Z) : (Z * Z) + Z :=
  let '(lower, upper) := b in
  if Z.ltb 0 (upper - lower) then
    let lower_guess := (Z.quot (upper - lower) 2 + lower)%Z in
    let upper_guess := (lower_guess + 1)%Z in
    if ratio_lt (f_magnitude radicand degree lower_guess)
                (f_magnitude radicand degree upper_guess)
    then inl (lower, lower_guess)
    else inl (upper_guess, upper)
  else inr upper.

(** The whole search; fuel = initial span + 1. *)
Definition bisect {E} (radicand : Q) (degree : N) (lower upper : Z) : outcome E Z :=
  match iter_until (Z.to_pos (upper - lower + 1)) (bisect_step radicand degree) (lower, upper) with
  | inr guess => Ok guess
  | inl _ => Panic OutOfFuel
  end.

(** src/operations.rs:181-188: one iteration of the Newton loop. *)
Definition newton_step {E} (radicand : Q) (degree : N) (max_error : Q) (x : Q) : Q + outcome E Q :=
  match next_x (E := E) radicand degree x with
  | Ok x' =>
      if ratio_le (ratio_abs (ratio_sub x' x)) max_error then inr (Ok x') else inl x'
  | Err e => inr (Err e)
  | Panic p => inr (Panic p)
  end.

(** Fuel for the Newton loop: after the first step the iterates move monotonically
    towards 0 by more than [max_error] per non-final step, so |x1|/max_error + 2
    steps suffice (proved in ProofsRoot.v). *)
Definition newton_fuel (radicand : Q) (degree : N) (max_error : Q) (x : Q) : positive :=
  match next_x (E := unit) radicand degree x with
  | Ok x1 => Z.to_pos (2 + Z.abs (Qnum x1) * Zpos (Qden max_error))
  | _ => 1
  end.

Definition newton {E} (radicand : Q) (degree : N) (max_error : Q) (x : Q) : outcome E Q :=
  match iter_until (newton_fuel radicand degree max_error x)
                   (newton_step radicand degree max_error) x with
  | inr r => r
  | inl _ => Panic OutOfFuel
  end.

(** src/operations.rs:76-191 [exponentiate]; [precision], [radix] are u8. *)
Definition exponentiate (pr : profile) (base exponent : Q) (precision radix : N)
  : outcome math_error Q :=
  base <- (if ratio_is_negative exponent then ratio_inv base else Ok base) ;;
  let exp_num := Z.abs_N (Qnum exponent) in
  let degree := Npos (Qden exponent) in
  let radicand := ratio_pow base exp_num in
  precision1 <- u8_add pr precision 1 ;;
  max_error <- ratio_new 1 (Z.pow (Z.of_N radix) (Z.of_N precision1)) ;;
  if N.eqb degree 1 then Ok radicand
  else if ratio_is_negative radicand && N.even degree then Err ImaginaryResult
  else
    let '(lower, upper) :=
      if ratio_is_negative radicand then (ratio_to_integer radicand, 0%Z)
      else (0%Z, ratio_to_integer radicand) in
    guess <- bisect radicand degree lower upper ;;
    if ratio_is_zero (f_magnitude radicand degree guess) then Ok (ratio_int guess)
    else newton radicand degree max_error (ratio_int guess).
