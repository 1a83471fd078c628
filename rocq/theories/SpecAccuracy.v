(** SpecAccuracy.v -- how far an answer is from what was asked for. *)
From Verif Require Import Base Position Num TokenTypes Errors Token SavedData Variables InputHistory
  SyntaxTree Commands Calculate SpecGrammar SpecEval SpecCalc.
From Coq Require Import String.
Local Open Scope list_scope.

(** The exact value of the line's expression (of the right side, if the line is an assignment), in the state
    the line is calculated in. *)
Definition line_value (pr : profile) (se : session) (ts : list ptoken) (v : Q) : Prop :=
  exists n, (derives 5 ts n \/ exists y, assignment ts y n) /\
    meaning (var_result (after_recording se)) (power_with pr (s_args se)) n (Value v).
(** The value of a one in the last place, with [digits] digits after the point. *)
Definition last_place (radix digits : N) : Q := 1 / inject_Z (Z.of_N radix ^ Z.of_N digits).
(** The same settings but for the number of digits after the point. *)
Definition with_precision (p : N) (a : args) : args :=
  mkArgs (a_radix a) (a_alternate_screen a) (a_convert_to_radix a) p (a_extra_precision a)
         (a_fractional a) (a_commas a) (a_upper a).
