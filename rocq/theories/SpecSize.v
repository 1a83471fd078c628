(** SpecSize.v -- how long numbers and answers are. *)
From Verif Require Import Base Position TokenTypes SyntaxTree SpecLex.
From Coq Require Import QArith ZArith String.
Local Open Scope list_scope.

(** In lowest terms, the numerator and the denominator of [v] are less than [B] (the numerator in magnitude). *)
Definition fits (B : Z) (v : Q) : Prop :=
  exists n d, (v == n # d)%Q /\ Z.gcd n (Zpos d) = 1%Z /\ (Z.abs n < B)%Z /\ (Zpos d < B)%Z.
(** They have at most [k] digits in this radix. *)
Definition digits_at_most (radix : N) (k : nat) (v : Q) : Prop := fits (Z.of_N radix ^ Z.of_nat k) v.
(** There is no [^] and no [sqrt] among the tokens. *)
Definition free_of_powers (ts : list ptoken) : Prop :=
  forall t, In t ts -> pd_value t <> TBin Exponent /\ pd_value t <> TUn SquareRoot.
(** The number of times a variable is named. *)
Definition namings (ts : list ptoken) : nat :=
  List.length (filter (fun t => match pd_value t with TVariable _ => true | _ => false end) ts).
(** A text without its commas. *)
Definition no_commas (s : str) : str := filter (fun c => negb (N.eqb c 44)) s.
