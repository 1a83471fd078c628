(** SpecResize.v -- the line being edited and the terminal, when the window is resized during a session. *)
From Verif Require Import Base Position Num TokenTypes Errors Token SavedData Variables InputHistory
  SyntaxTree Commands Calculate Editor SpecEditor SpecSession SpecTerminal.
From Coq Require Import String.
Local Open Scope nat_scope.
Local Open Scope list_scope.

(** Inline mode: a row of a terminal of that width shows the line: all of it after the prompt, or a part of it of [w - 4]
    characters between marks that say that more is left out to the left and to the right; the part includes the cursor,
    and the column is the one of the character at the cursor. *)
Definition row_shows (w : nat) (line : str) (cursor : nat) (row : str) (col : nat) : Prop :=
  exists off, off <= cursor /\ cursor < off + (w - 4) /\
    row = (if Nat.eqb off 0 then lit "# " else lit "< ") ++ firstn (w - 4) (skipn off line) ++
          (if Nat.ltb (off + (w - 4)) (List.length line) then lit " >" else []) /\
    col = 2 + (cursor - off) /\ col < w /\ List.length row <= w /\
    (cursor < List.length line -> nth_error row col = nth_error line cursor).

(** Alternate screen: from the row [r] on there is the line, folded after its prompt, and nothing else; the cursor is in
    its cell (in the last row, if that cell is below it). *)
Definition rows_show (g : grid) (r : nat) (line : str) (cursor : nat) : Prop :=
  exists e blanks, echo (g_width g) line e /\ skipn r (g_rows g) = e ++ repeat [] blanks /\
    cursor_of g = (2 + cursor mod (g_width g - 2), Nat.min (r + cursor / (g_width g - 2)) (g_height g - 1)).
(** The row the terminal reported when the line was begun (src/main.rs:165). *)
Definition first_row (u : ui) : nat := snd (l_start (u_line u)).

(** A session during which the terminal is resized: what it makes of its contents then is its own affair -- any
    contents, any height and any place of the cursor are possible.  It reports its new width. *)
Inductive resized_run (pr : profile) (ord : nat -> list str -> list str) (x : executor)
  : list event -> ui -> grid -> ui -> grid -> Prop :=
| rr_end : forall u g, resized_run pr ord x [] u g u g
| rr_resize : forall w evs u g g' u1 g1 u2 g2, g_width g' = w -> g_row g' < g_height g' ->
    live_step pr ord x (EvResize w) u g' = (u1, g1, Waiting) -> resized_run pr ord x evs u1 g1 u2 g2 ->
    resized_run pr ord x (EvResize w :: evs) u g u2 g2
| rr_other : forall ev evs u g u1 g1 u2 g2, ~ resizes ev ->
    live_step pr ord x ev u g = (u1, g1, Waiting) -> resized_run pr ord x evs u1 g1 u2 g2 ->
    resized_run pr ord x (ev :: evs) u g u2 g2.
Definition resized_session (pr : profile) (ord : nat -> list str -> list str) (x : executor) (a : args) (db : option saved_data)
           (evs : list event) (g : grid) (u : ui) (g' : grid) : Prop :=
  g_row g < g_height g /\ exists u0 out, interactive_start pr (answering g) a db = (u0, out, Waiting) /\
    resized_run pr ord x evs u0 (grid_after out g) u g'.
