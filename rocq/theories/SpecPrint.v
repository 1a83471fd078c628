(** SpecPrint.v -- what a printed result is, written without reference to the printing code.
    Only the positional values of SpecLex are shared. *)
From Verif Require Import Base SpecLex.
From Coq Require Import String Qabs.
Local Open Scope list_scope.

(** The spelling of a list of digit values. *)
Definition spell (upper : bool) (ds : list N) : str :=
  map (fun d => nth (N.to_nat d)
                    (if upper then lit "0123456789ABCDEF" else lit "0123456789abcdef") 63%N) ds.

(** [s] is the text made of a sign, the integer digits [ids] and the fractional digits [fds]:
    no superfluous leading zero, at least one integer digit, no dangling point. *)
Definition decimal_text (radix : N) (upper neg : bool) (ids fds : list N) (s : str) : Prop :=
  s = (if neg then lit "-" else []) ++ spell upper ids ++
      match fds with [] => [] | _ => lit "." ++ spell upper fds end /\
  Forall (fun d => (d < radix)%N) (ids ++ fds) /\
  ids <> [] /\ (forall ds, ids = 0%N :: ds -> ds = []).

(** The number such a text stands for. *)
Definition text_value (radix : N) (neg : bool) (ids fds : list N) : Q :=
  let q := (inject_Z (int_value radix ids) + frac_value radix fds)%Q in
  if neg then Qopp q else q.

(** [v] has a finite expansion of at most [p] fractional digits in the radix. *)
Definition representable (radix p : N) (v : Q) : Prop :=
  exists m, (v * inject_Z (Z.of_N radix ^ Z.of_N p) == inject_Z m)%Q.

(** [w] is the representable number nearest to [v]; of two nearest ones it is the one of
    larger magnitude. *)
Definition nearest (radix p : N) (v w : Q) : Prop :=
  representable radix p w /\
  forall u, representable radix p u ->
    (Qabs (w - v) <= Qabs (u - v))%Q /\
    (Qabs (u - v) == Qabs (w - v) -> Qabs u <= Qabs w)%Q.

(** The comma grouping of a digit string: groups of three, the first of one to three. *)
Inductive grouped : str -> list str -> Prop :=
| gr_one : forall g, (1 <= List.length g <= 3)%nat -> grouped g [g]
| gr_more : forall s gs g, grouped s gs -> List.length g = 3%nat -> grouped (s ++ g) (gs ++ [g]).
Fixpoint join_commas (gs : list str) : str :=
  match gs with
  | [] => []
  | [g] => g
  | g :: gs' => g ++ lit "," ++ join_commas gs'
  end.

(** The radix results are printed in. *)
From Verif Require Import SyntaxTree.
Definition output_radix (a : args) : N :=
  match a_convert_to_radix a with Some r => r | None => a_radix a end.
(** Decimal output is selected. *)
Definition decimal_output (a : args) : Prop := a_fractional a = false /\ (2 <= output_radix a <= 16)%N.
Definition with_commas (c : bool) (a : args) : args :=
  mkArgs (a_radix a) (a_alternate_screen a) (a_convert_to_radix a) (a_precision a) (a_extra_precision a)
         (a_fractional a) c (a_upper a).

(** [s] is the integer [z] written in the radix. *)
Definition integer_text (radix : N) (z : Z) (s : str) : Prop :=
  exists neg ids, decimal_text radix false neg ids [] s /\ (neg = true <-> (z < 0)%Z) /\
    z = if neg then Z.opp (int_value radix ids) else int_value radix ids.
(** [s] is the fraction [v] in lowest terms, written in the radix. *)
Definition fraction_text (radix : N) (v : Q) (s : str) : Prop :=
  exists n d, (v == n # d)%Q /\ Z.gcd n (Zpos d) = 1%Z /\
    ((d = 1%positive /\ integer_text radix n s) \/
     (d <> 1%positive /\ exists sn sd, integer_text radix n sn /\ integer_text radix (Zpos d) sd /\ s = sn ++ lit "/" ++ sd)).

(** [text] is the number [v] as the settings want it shown.  With fractional output: the fraction in
    lowest terms, in radix ten (C32).  Otherwise: sign, integer digits (in groups of three if commas
    are wanted), point and fractional digits in the output radix and letter case, standing for the
    nearest number with [a_precision] fractional digits; a number that has at most that many
    fractional digits is shown exactly and without trailing zeros, any other with exactly that many. *)
Definition result_text (a : args) (v : Q) (text : str) : Prop :=
  (a_fractional a = true /\ fraction_text 10 v text) \/
  (a_fractional a = false /\ exists neg ids fds groups,
     Forall (fun d => (d < output_radix a)%N) (ids ++ fds) /\
     ids <> [] /\ (forall ds, ids = 0%N :: ds -> ds = []) /\
     (neg = true <-> (v < 0)%Q) /\
     nearest (output_radix a) (a_precision a) v (text_value (output_radix a) neg ids fds) /\
     ((representable (output_radix a) (a_precision a) v /\
       (List.length fds <= N.to_nat (a_precision a))%nat /\ (forall ds d, fds = ds ++ [d] -> d <> 0%N)) \/
      (~ representable (output_radix a) (a_precision a) v /\ List.length fds = N.to_nat (a_precision a))) /\
     grouped (spell (a_upper a) ids) groups /\
     text = (if neg then lit "-" else []) ++
            (if a_commas a then join_commas groups else spell (a_upper a) ids) ++
            match fds with [] => [] | _ => lit "." ++ spell (a_upper a) fds end).
