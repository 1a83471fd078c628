(** SpecTogether.v -- what programs sharing a file do to it. *)
From Verif Require Import Base Position Num TokenTypes Errors Token SavedData Variables InputHistory
  SyntaxTree Commands Calculate Editor Sessions Main Together SpecGrammar SpecEval SpecHistory SpecEditor SpecCalc SpecSession SpecData SpecMain.
From Coq Require Import String.
Local Open Scope list_scope.

(** Nobody has sat down yet, and the file is [d]. *)
Definition empty_desk (d : database) : desk := mkDesk d (fun _ => None).
(** The program on seat [i] waits for an event; it is in state [u] (its handle on the file as it is now). *)
Definition sits (k : desk) (i : nat) (u : ui) : Prop := exists u0, k_seat k i = Some (u0, Running) /\ u = with_file (k_file k) u0.
(** The programs start with acceptable settings, and their databases work. *)
Definition proper_move (mv : move) : Prop := match mv with Begin _ a _ => valid_settings a | Press _ _ => True end.
Definition calm_move (mv : move) : Prop :=
  match mv with Begin _ _ (Some faults) => ~ In true faults | _ => True end.

(** The lines a move submitted to the shared history. *)
Definition news (k : desk) (mv : move) (k' : desk) : list str :=
  match mv with
  | Begin _ _ _ => []
  | Press i _ =>
      match k_seat k i, k_seat k' i with
      | Some (u, _), Some (u', _) =>
          match u_db u with Some _ => skipn (List.length (submitted u)) (submitted u') | None => [] end
      | _, _ => []
      end
  end.
Fixpoint all_news (pr : profile) (ord : nat -> nat -> list str -> list str) (x : executor)
         (tm : nat -> terminal) (moves : list move) (k : desk) : list str :=
  match moves with
  | [] => []
  | mv :: rest => let k' := fst (desk_step pr ord x tm mv k) in news k mv k' ++ all_news pr ord x tm rest k'
  end.

(** The line sets or forgets variable [y]. *)
Definition writes (radix : N) (line : str) (y : str) : Prop :=
  (exists ts n, is_expression radix line ts /\ assignment ts y n) \/
  (exists arguments names, is_command radix line (lit "purgevar") arguments /\ variable_list arguments names /\ In y names).
