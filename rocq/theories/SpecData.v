(** SpecData.v -- the commands that act on the saved data: /histcap, /purgevar, /reloadvar. *)
From Verif Require Import Base Position Num TokenTypes Token SavedData SpecLex SpecHistory SpecCommands SpecSession.
From Coq Require Import String.
Local Open Scope list_scope.

(** The saved data [d1] are [d] with the submitted line stored as the newest input, under the
    identifier [id]: the oldest inputs beyond the capacity are gone, and with them the variables
    that were last used by one of those; nothing else changed. *)
Definition line_recorded (d : database) (line : str) (id : Z) (d1 : database) : Prop :=
  exists cap, (1 <= cap)%Z /\ capacity d cap /\ capacity d1 cap /\
    inputs_of d1 = newest cap (inputs_of d ++ [(id, line)]) /\
    forall y q k, saved d1 y q k <-> saved d y q k /\ In k (ids_of d1).
(** The inputs and the capacity are the same. *)
Definition same_history (d d' : database) : Prop :=
  inputs_of d' = inputs_of d /\ forall n, capacity d' n <-> capacity d n.

(** The argument text is this list of variables (see C07). *)
Definition variable_list (arguments : str) (names : list str) : Prop :=
  all_ascii arguments /\ ~ command_line arguments /\
  exists ts, reading 10 0 arguments ts /\ map pd_value ts = map TVariable names.

(** [order] is the names without their repetitions, in any order. *)
Definition each_once (names order : list str) : Prop := NoDup order /\ forall y, In y order <-> In y names.

(** What /reloadvar reports about one variable. *)
Inductive reload_row (d : database) (y : str) : str -> Prop :=
| row_set : forall q k, saved d y q k -> reload_row d y (lit "Set " ++ y ++ lit " to " ++ fraction_text q)
| row_unchanged : (forall q k, ~ saved d y q k) -> reload_row d y (y ++ lit " unchanged").
