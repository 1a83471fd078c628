(** SpecLaws.v -- identities of rational arithmetic, as texts that can be typed. *)
From Verif Require Import Base Position Num TokenTypes Errors Token SavedData Variables InputHistory
  SyntaxTree Commands Calculate SpecGrammar SpecEval SpecCalc SpecCompose.
From Coq Require Import String Qabs Qpower Qminmax ZArith.
Local Open Scope list_scope.

(** A formula over parts that are numbered. *)
Inductive formula :=
| Part (i : nat)
| Whole (n : N)
| Sum (f g : formula) | Difference (f g : formula) | Product (f g : formula) | Quotient (f g : formula)
| Remainder (f g : formula) | Power (f g : formula)
| Opposite (f : formula) | Absolute (f : formula)
| Largest (f g : formula) | Smallest (f g : formula).

(** How it is written, each operand in parentheses; [part i] is what stands for part [i]. *)
Fixpoint formula_text (part : nat -> list token) (f : formula) : list token :=
  let between o f g := in_parentheses (formula_text part f) ++ TBin o :: in_parentheses (formula_text part g) in
  let function n f g := TFun n :: in_parentheses (formula_text part f ++ TComma :: formula_text part g) in
  match f with
  | Part i => part i
  | Whole n => [TNumber (inject_Z (Z.of_N n))]
  | Sum f g => between Add f g
  | Difference f g => between Subtract f g
  | Product f g => between Multiply f g
  | Quotient f g => between Divide f g
  | Remainder f g => between Modulus f g
  | Power f g => between Exponent f g
  | Opposite f => TBin Subtract :: in_parentheses (formula_text part f)
  | Absolute f => TUn AbsoluteValue :: in_parentheses (formula_text part f)
  | Largest f g => function FMax f g
  | Smallest f g => function FMin f g
  end.

(** The rational number it stands for, if the parts have the values [val]. *)
Inductive denotes (val : nat -> Q) : formula -> Q -> Prop :=
| dn_part : forall i q, q == val i -> denotes val (Part i) q
| dn_whole : forall n q, q == inject_Z (Z.of_N n) -> denotes val (Whole n) q
| dn_sum : forall f g x y q, denotes val f x -> denotes val g y -> q == x + y -> denotes val (Sum f g) q
| dn_difference : forall f g x y q, denotes val f x -> denotes val g y -> q == x - y -> denotes val (Difference f g) q
| dn_product : forall f g x y q, denotes val f x -> denotes val g y -> q == x * y -> denotes val (Product f g) q
| dn_quotient : forall f g x y q, denotes val f x -> denotes val g y -> ~ y == 0 -> q == x / y -> denotes val (Quotient f g) q
| dn_remainder : forall f g x y q, denotes val f x -> denotes val g y -> ~ y == 0 -> remainder x y q -> denotes val (Remainder f g) q
| dn_power : forall f g x y z q, denotes val f x -> denotes val g y -> y == inject_Z z -> power_exists x z -> q == x ^ z ->
    denotes val (Power f g) q
| dn_opposite : forall f x q, denotes val f x -> q == - x -> denotes val (Opposite f) q
| dn_absolute : forall f x q, denotes val f x -> q == Qabs x -> denotes val (Absolute f) q
| dn_largest : forall f g x y q, denotes val f x -> denotes val g y -> q == Qmax x y -> denotes val (Largest f g) q
| dn_smallest : forall f g x y q, denotes val f x -> denotes val g y -> q == Qmin x y -> denotes val (Smallest f g) q.

Fixpoint has_powers (f : formula) : Prop :=
  match f with
  | Part _ | Whole _ => False
  | Power _ _ => True
  | Sum f g | Difference f g | Product f g | Quotient f g | Remainder f g | Largest f g | Smallest f g => has_powers f \/ has_powers g
  | Opposite f | Absolute f => has_powers f
  end.

(** What is written in place of the variable [h]. *)
Definition put (h : str) (e : list token) (ts : list token) : list token :=
  flat_map (fun t => match t with
                     | TVariable y => if list_eq_dec N.eq_dec y h then in_parentheses e else [t]
                     | _ => [t]
                     end) ts.
(** A line, well formed if [h] were a variable, with [e] in the places of [h]; in an assignment the places
    are on the right side. *)
Inductive line_with (h : str) (outline : list ptoken) (e : list token) : list ptoken -> Prop :=
| lw_expression : forall n ts, derives 5 outline n -> written ts = put h e (written outline) -> line_with h outline e ts
| lw_assignment : forall y p q p' q' rest n ts, outline = tk (TVariable y) p :: tk TAssign q :: rest -> derives 5 rest n ->
    written ts = put h e (written rest) -> line_with h outline e (tk (TVariable y) p' :: tk TAssign q' :: ts).

(** Three things, numbered. *)
Definition three {T} (a b c : T) (i : nat) : T := match i with O => a | 1%nat => b | _ => c end.

(** Laws that hold for all values [x], [y], [z] of the parts 0, 1, 2. *)
Local Notation A := (Part 0). Local Notation B := (Part 1). Local Notation C := (Part 2).
Inductive law (x y z : Q) : formula -> formula -> Prop :=
| l_add_commutes : law x y z (Sum A B) (Sum B A)
| l_add_associates : law x y z (Sum (Sum A B) C) (Sum A (Sum B C))
| l_add_zero : law x y z (Sum A (Whole 0)) A
| l_subtract_self : law x y z (Difference A A) (Whole 0)
| l_subtract : law x y z (Difference A B) (Sum A (Opposite B))
| l_subtract_add : law x y z (Sum (Difference A B) B) A
| l_opposite_twice : law x y z (Opposite (Opposite A)) A
| l_opposite_sum : law x y z (Opposite (Sum A B)) (Difference (Opposite A) B)
| l_multiply_commutes : law x y z (Product A B) (Product B A)
| l_multiply_associates : law x y z (Product (Product A B) C) (Product A (Product B C))
| l_multiply_one : law x y z (Product A (Whole 1)) A
| l_multiply_zero : law x y z (Product A (Whole 0)) (Whole 0)
| l_distributes : law x y z (Product A (Sum B C)) (Sum (Product A B) (Product A C))
| l_distributes_minus : law x y z (Product A (Difference B C)) (Difference (Product A B) (Product A C))
| l_opposite_product : law x y z (Opposite (Product A B)) (Product (Opposite A) B)
| l_divide : ~ y == 0 -> law x y z (Quotient A B) (Product A (Quotient (Whole 1) B))
| l_divide_multiply : ~ y == 0 -> law x y z (Product (Quotient A B) B) A
| l_multiply_divide : ~ y == 0 -> law x y z (Quotient (Product A B) B) A
| l_divide_self : ~ x == 0 -> law x y z (Quotient A A) (Whole 1)
| l_divide_twice : ~ y == 0 -> ~ z == 0 -> law x y z (Quotient (Quotient A B) C) (Quotient A (Product B C))
| l_divide_sum : ~ z == 0 -> law x y z (Quotient (Sum A B) C) (Sum (Quotient A C) (Quotient B C))
| l_cancel : ~ y == 0 -> ~ z == 0 -> law x y z (Quotient (Product A C) (Product B C)) (Quotient A B)
| l_remainder_opposite : ~ y == 0 -> law x y z (Remainder (Opposite A) B) (Opposite (Remainder A B))
| l_remainder_sign : ~ y == 0 -> law x y z (Remainder A (Opposite B)) (Remainder A B)
| l_remainder_twice : ~ y == 0 -> law x y z (Remainder (Remainder A B) B) (Remainder A B)
| l_remainder_scaled : ~ y == 0 -> ~ z == 0 -> law x y z (Remainder (Product A C) (Product B C)) (Product (Remainder A B) C)
| l_power_zero : law x y z (Power A (Whole 0)) (Whole 1)
| l_power_one : law x y z (Power A (Whole 1)) A
| l_power_square : law x y z (Power A (Whole 2)) (Product A A)
| l_power_sum : forall m n, y == inject_Z m -> z == inject_Z n -> (0 <= m /\ 0 <= n)%Z \/ ~ x == 0 ->
    law x y z (Power A (Sum B C)) (Product (Power A B) (Power A C))
| l_power_twice : forall m n, y == inject_Z m -> z == inject_Z n -> (0 <= m /\ 0 <= n)%Z \/ ~ x == 0 ->
    law x y z (Power (Power A B) C) (Power A (Product B C))
| l_power_product : forall n, z == inject_Z n -> (0 <= n)%Z \/ (~ x == 0 /\ ~ y == 0) ->
    law x y z (Power (Product A B) C) (Product (Power A C) (Power B C))
| l_power_opposite : forall m, y == inject_Z m -> ~ x == 0 -> law x y z (Power A (Opposite B)) (Quotient (Whole 1) (Power A B))
| l_absolute_opposite : law x y z (Absolute (Opposite A)) (Absolute A)
| l_absolute_twice : law x y z (Absolute (Absolute A)) (Absolute A)
| l_absolute_product : law x y z (Absolute (Product A B)) (Product (Absolute A) (Absolute B))
| l_absolute_largest : law x y z (Absolute A) (Largest A (Opposite A))
| l_largest_commutes : law x y z (Largest A B) (Largest B A)
| l_largest_associates : law x y z (Largest (Largest A B) C) (Largest A (Largest B C))
| l_largest_self : law x y z (Largest A A) A
| l_largest_sum : law x y z (Sum A (Largest B C)) (Largest (Sum A B) (Sum A C))
| l_smallest_commutes : law x y z (Smallest A B) (Smallest B A)
| l_smallest_associates : law x y z (Smallest (Smallest A B) C) (Smallest A (Smallest B C))
| l_smallest_largest : law x y z (Smallest A B) (Opposite (Largest (Opposite A) (Opposite B)))
| l_largest_smallest : law x y z (Sum (Largest A B) (Smallest A B)) (Sum A B)
| l_absorb : law x y z (Largest A (Smallest A B)) A
| l_symmetric : forall f g, law x y z g f -> law x y z f g.
