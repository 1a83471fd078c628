(** SpecRounds.v -- how a root is found, round by round. *)
From Verif Require Import Base.
From Coq Require Import QArith Qabs Qround ZArith.
Local Open Scope Q_scope.

(** How far the [d]-th power of [x] is from [t]. *)
Definition off (t : Q) (d : positive) (x : Z) : Q := Qabs (inject_Z x ^ Zpos d - t).
(** The whole numbers from 0 to [t]. *)
Inductive between_zero_and (t : Q) : Z -> Z -> Prop :=
| bz_up : 0 <= t -> between_zero_and t 0 (Qfloor t)
| bz_down : t < 0 -> between_zero_and t (- Qfloor (- t)) 0.
(** [searched t d lo hi n x]: halving the interval from [lo] to [hi], always towards the better of the two
    whole numbers in its middle, arrives at [x] after [n] rounds. *)
Inductive searched (t : Q) (d : positive) : Z -> Z -> nat -> Z -> Prop :=
| sd_found : forall lo hi, (hi <= lo)%Z -> searched t d lo hi 0 hi
| sd_lower : forall lo hi mid n x, (lo < hi)%Z -> mid = (lo + (hi - lo) / 2)%Z -> off t d mid < off t d (mid + 1) ->
    searched t d lo mid n x -> searched t d lo hi (S n) x
| sd_upper : forall lo hi mid n x, (lo < hi)%Z -> mid = (lo + (hi - lo) / 2)%Z -> off t d (mid + 1) <= off t d mid ->
    searched t d (mid + 1) hi n x -> searched t d lo hi (S n) x.
(** Newton's formula for the [d]-th root of [t]. *)
Definition newton_formula (t : Q) (d : positive) (x : Q) : Q :=
  (t + inject_Z (Zpos d - 1) * x ^ Zpos d) / (inject_Z (Zpos d) * x ^ (Zpos d - 1)).
(** [refined t d eps x n y]: repeating the formula from [x] until it moves by no more than [eps] arrives at [y]
    after [n] rounds. *)
Inductive refined (t : Q) (d : positive) (eps : Q) : Q -> nat -> Q -> Prop :=
| rf_last : forall x y, ~ x == 0 -> y == newton_formula t d x -> Qabs (y - x) <= eps -> refined t d eps x 1 y
| rf_more : forall x x' n y, ~ x == 0 -> x' == newton_formula t d x -> eps < Qabs (x' - x) -> refined t d eps x' n y -> refined t d eps x (S n) y.
