(** SpecCompose.v -- replacing a part of a line by another one that has the same value. *)
From Verif Require Import Base Position Num TokenTypes Errors Token SavedData Variables InputHistory
  SyntaxTree Commands Calculate SpecGrammar SpecEval SpecCalc.
From Coq Require Import String.
Local Open Scope list_scope.

(** What is written, without its position in the line. *)
Definition written (ts : list ptoken) : list token := map pd_value ts.
(** The second text is the first with some of the occurrences of [t] (none, some or all) replaced. *)
Inductive replaced (t : token) (by_ : list token) : list token -> list token -> Prop :=
| rp_end : replaced t by_ [] []
| rp_keep : forall u us ws, replaced t by_ us ws -> replaced t by_ (u :: us) (u :: ws)
| rp_change : forall us ws, replaced t by_ us ws -> replaced t by_ (t :: us) (by_ ++ ws).
(** The same in a line, which is well formed; in an assignment the variable assigned stays. *)
Inductive replaced_in_line (t : token) (by_ : list token) : list ptoken -> list ptoken -> Prop :=
| rl_expression : forall ts ts' n, derives 5 ts n -> replaced t by_ (written ts) (written ts') ->
    replaced_in_line t by_ ts ts'
| rl_assignment : forall y p q p' q' ts ts' n, derives 5 ts n -> replaced t by_ (written ts) (written ts') ->
    replaced_in_line t by_ (tk (TVariable y) p :: tk TAssign q :: ts) (tk (TVariable y) p' :: tk TAssign q' :: ts').
Definition in_parentheses (ts : list token) : list token := TOpen :: ts ++ [TClose].

(** Evaluated in state [s] under the settings [a], the expression written [ts] comes to [v]. *)
Definition comes_to (pr : profile) (a : args) (s : env) (ts : list ptoken) (v : Q) : Prop :=
  exists n s', derives 5 ts n /\ exec pr a n s = (s', Ok v).
(** A number or a variable. *)
Definition simple (t : token) : Prop := (exists v, t = TNumber v) \/ (exists y, t = TVariable y).

(** The same reply; a complaint may point at another place. *)
Definition same_reply (r r' : outcome failure str) : Prop :=
  match r, r' with
  | Ok text, Ok text' => text = text'
  | Err e, Err e' => same_failure e e'
  | Panic p, Panic p' => p = p'
  | _, _ => False
  end.
