(** SpecUnrelated.v -- lines that have nothing to do with each other. *)
From Verif Require Import Base Position Num TokenTypes Errors Token SavedData Variables InputHistory
  SyntaxTree Commands Calculate SpecGrammar SpecEval SpecCalc.
From Coq Require Import String.
Local Open Scope list_scope.

(** The variables a line uses: all it mentions, except the one before the [=]. *)
Definition uses (ts : list ptoken) (y : str) : Prop :=
  match ts with
  | t :: e :: rest => match pd_value t, pd_value e with
                      | TVariable _, TAssign => mentions rest y
                      | _, _ => mentions ts y
                      end
  | _ => mentions ts y
  end.
(** The variable before the [=]. *)
Definition assigns_to (ts : list ptoken) (y : str) : Prop :=
  exists p q rest, ts = tk (TVariable y) p :: tk TAssign q :: rest.
(** Neither line assigns a variable that the other mentions. *)
Definition unrelated (ts1 ts2 : list ptoken) : Prop :=
  (forall y, assigns_to ts1 y -> ~ mentions ts2 y) /\ (forall y, assigns_to ts2 y -> ~ mentions ts1 y).
Definition unrelated_lines (radix : N) (line1 line2 : str) : Prop :=
  forall ts1 ts2, is_expression radix line1 ts1 -> is_expression radix line2 ts2 -> unrelated ts1 ts2.
(** The variable has no value, or the session has it in memory (not only on disk, where storing the
    next line may drop it). *)
Definition at_hand (s : env) (y : str) : Prop := forall v, var_value s y v -> remembered s y v.
(** The session waits for a line and none has been begun. *)
Definition no_line_begun (se : session) : Prop :=
  match s_inputs se with Some h => ih_current h = [Some []] /\ ih_index h = 0 | None => True end.
