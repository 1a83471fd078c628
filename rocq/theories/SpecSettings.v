(** SpecSettings.v -- changing the settings by commands. *)
From Verif Require Import Base Position Num TokenTypes Errors Token SavedData Variables InputHistory
  SyntaxTree Commands Calculate SpecGrammar SpecEval SpecCalc SpecSession.
From Coq Require Import String.
Local Open Scope list_scope.

(** In every working session with settings [a], the line is answered [Done] and leaves the settings [a']
    and the variables as they were. *)
Definition turns (line : str) (a a' : args) : Prop :=
  forall pr ord x se se' r, @executor_new Empty_set = Ok x -> working_session se -> iterates ord -> s_args se = a ->
    calculate pr ord x line se = (se', r) ->
    r = Ok (lit "Done") /\ s_args se' = a' /\ e_vars (s_env se') = e_vars (s_env se) /\
    forall y v, var_value (s_env se') y v <-> var_value (after_recording se) y v.
(** The same for several lines, one after the other. *)
Inductive turned : args -> list str -> args -> Prop :=
| td_none : forall a, turned a [] a
| td_line : forall a line a1 lines a2, turns line a a1 -> turned a1 lines a2 -> turned a (line :: lines) a2.
