(** SpecReentry.v -- the number an answer shows. *)
From Verif Require Import Base SpecLex SpecPrint.
From Coq Require Import String.
Local Open Scope list_scope.

(** [text] is a number written in the radix -- sign, digits, possibly a point and digits -- and stands for [q]. *)
Definition shows (radix : N) (text : str) (q : Q) : Prop :=
  exists upper neg ids fds, decimal_text radix upper neg ids fds text /\ (q == text_value radix neg ids fds)%Q.
Definition without_commas (text : str) : str := filter (fun c => negb (N.eqb c 44)) text.
