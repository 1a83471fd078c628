(** SpecDecimal.v -- how an integer is written in decimal, by Coq's own standard library:
    a minus sign for a negative number, then its digits without leading zeros. *)
From Verif Require Import Base.
From Coq Require Import String Decimal DecimalString.

Definition in_decimal (z : Z) : str := lit (NilZero.string_of_int (Z.to_int z)).

Example decimal_examples :
  in_decimal 0 = lit "0" /\ in_decimal 1020 = lit "1020" /\ in_decimal (-37) = lit "-37".
Proof. vm_compute. repeat split; reflexivity. Qed.
